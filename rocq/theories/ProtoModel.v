(** Model of the prototype descriptions used by SourceHook.
    Source: /repo/core/sourcehook/sourcehook_impl_cproto.{h,cpp},
            /repo/core/sourcehook/sourcehook.h lines 185-253. *)
From Coq Require Import ZArith List Bool.
Import ListNotations.
Open Scope Z_scope.

(** sourcehook.h 185-228: struct PassInfo (size, type, flags). *)
Record rawpass := RawPass { rp_size : Z; rp_type : Z; rp_flags : Z }.

(** sourcehook.h 214-227: struct PassInfo::V2Info. *)
Record rawpass2 := RawPass2 { r2_normal : Z; r2_copy : Z; r2_dtor : Z; r2_assign : Z }.

(** sourcehook.h 230-256: struct ProtoInfo.  [raw_params] and [raw_params2]
    are the arrays, element 0 being the dummy parameter. *)
Record rawproto := RawProto {
  raw_num : Z; raw_ret : rawpass; raw_params : list rawpass;
  raw_conv : Z; raw_ret2 : rawpass2; raw_params2 : list rawpass2 }.

(** sourcehook_impl_cproto.h 24-49: struct IntPassInfo. *)
Record passinfo := PassInfo {
  pi_size : Z; pi_type : Z; pi_flags : Z;
  pi_normal : Z; pi_copy : Z; pi_dtor : Z; pi_assign : Z }.

(** sourcehook_impl_cproto.h 51-57: class CProto. *)
Record proto := Proto {
  pr_version : Z; pr_num : Z; pr_ret : passinfo;
  pr_params : list passinfo; pr_conv : Z }.

(** sourcehook.h 200-201, 192, 234 *)
Definition PassFlag_ByVal : Z := 1.
Definition PassFlag_ByRef : Z := 2.
Definition PassType_Unknown : Z := 0.
Definition CallConv_Unknown : Z := 0.
(** sizeof(void* ) on x86-64 *)
Definition ptr_size : Z := 8.

(** sourcehook_impl_cproto.h 62-65: GetRealFlags *)
Definition get_real_flags (r : rawpass) : Z :=
  if rp_flags r =? 0 then PassFlag_ByVal else rp_flags r.

Definition no_pass2 : rawpass2 := RawPass2 0 0 0 0.

Definition mk_pass (size type flags : Z) (r2 : rawpass2) : passinfo :=
  PassInfo size type flags (r2_normal r2) (r2_copy r2) (r2_dtor r2) (r2_assign r2).

(** sourcehook_impl_cproto.cpp 41-52: the loop over the parameters in
    version 1 format; [i] is the C++ loop variable (1-based). [None]: the
    array access is out of bounds. *)
Fixpoint fill_v1 (arr : list rawpass) (i : nat) (n : nat) : option (list passinfo) :=
  match n with
  | O => Some []
  | S n' =>
      match nth_error arr i with
      | None => None
      | Some r =>
          match fill_v1 arr (S i) n' with
          | None => None
          | Some l => Some (mk_pass (rp_size r) (rp_type r) (get_real_flags r) no_pass2 :: l)
          end
      end
  end.

(** sourcehook_impl_cproto.cpp 72-82: the same loop in version 2 format. *)
Fixpoint fill_v2 (arr : list rawpass) (arr2 : list rawpass2) (i : nat) (n : nat)
  : option (list passinfo) :=
  match n with
  | O => Some []
  | S n' =>
      match nth_error arr i, nth_error arr2 i with
      | Some r, Some r2 =>
          match fill_v2 arr arr2 (S i) n' with
          | None => None
          | Some l => Some (mk_pass (rp_size r) (rp_type r) (rp_flags r) r2 :: l)
          end
      | _, _ => None
      end
  end.

Definition junk_pass : passinfo := PassInfo 0 0 0 0 0 0 0.

(** sourcehook_impl_cproto.cpp 17-90: CProto::Fill.  [None] is undefined
    behaviour: a NULL argument is dereferenced at line 24 after line 20 has
    only set the version; an array shorter than announced; a negative number
    of parameters (resize with a huge size). *)
Definition fill (p : option rawproto) : option proto :=
  match p with
  | None => None
  | Some r =>
      match nth_error (raw_params r) 0 with
      | None => None
      | Some dummy =>
          if rp_size dummy =? 0 then
            if raw_num r <? 0 then None else
            match fill_v1 (raw_params r) 1 (Z.to_nat (raw_num r)) with
            | None => None
            | Some l =>
                Some (Proto 0 (raw_num r)
                        (mk_pass (rp_size (raw_ret r)) (rp_type (raw_ret r))
                                 (get_real_flags (raw_ret r)) no_pass2)
                        l (raw_conv r))
            end
          else if rp_size dummy =? 1 then
            if raw_num r <? 0 then None else
            match fill_v2 (raw_params r) (raw_params2 r) 1 (Z.to_nat (raw_num r)) with
            | None => None
            | Some l =>
                Some (Proto 1 (raw_num r)
                        (mk_pass (rp_size (raw_ret r)) (rp_type (raw_ret r))
                                 (rp_flags (raw_ret r)) (raw_ret2 r))
                        l (raw_conv r))
            end
          else
            (* Unknown version: line 87; the other members are not touched,
               [junk] stands for whatever they contained. *)
            Some (Proto (-1) 0 junk_pass [] 0)
      end
  end.

(** sourcehook_impl_cproto.h 68-70: CProto() *)
Definition proto_default : proto := Proto (-1) 0 junk_pass [] 0.

(** sourcehook_impl_cproto.h 132-140: GetRealSize *)
Definition get_real_size (p : passinfo) : Z :=
  if Z.eqb (Z.land (pi_flags p) PassFlag_ByRef) 0 then pi_size p else ptr_size.

(** sourcehook_impl_cproto.cpp 110-120: body of the parameter loop of
    operator==. *)
Definition param_compat (a b : passinfo) : bool :=
  if negb (get_real_size a =? get_real_size b) then false
  else if negb (pi_type a =? PassType_Unknown) && negb (pi_type b =? PassType_Unknown) then
    if negb (pi_type a =? pi_type b) then false
    else if negb (pi_flags a =? pi_flags b) then false
    else true
  else true.

(** The loops [for (int i = 0; i < m_NumOfParams; ++i)] of operator== and
    ExactlyEqual: both index both vectors; [None] is an out-of-bounds access
    (CVector::operator[] does not check). *)
Fixpoint params_loop (test : passinfo -> passinfo -> bool)
         (pa pb : list passinfo) (i : nat) (n : nat) : option bool :=
  match n with
  | O => Some true
  | S n' =>
      match nth_error pa i, nth_error pb i with
      | Some a, Some b =>
          if test a b then params_loop test pa pb (S i) n' else Some false
      | _, _ => None
      end
  end.

(** sourcehook_impl_cproto.cpp 94-123: CProto::operator== *)
Definition proto_eq (a b : proto) : option bool :=
  if (pr_version a <? 0) || (pr_version b <? 0) then Some false
  else if negb (pr_num a =? pr_num b) then Some false
  else if negb (pr_conv a =? CallConv_Unknown) && negb (pr_conv b =? CallConv_Unknown)
          && negb (pr_conv a =? pr_conv b) then Some false
  else if negb (get_real_size (pr_ret a) =? get_real_size (pr_ret b)) then Some false
  else params_loop param_compat (pr_params a) (pr_params b) 0 (Z.to_nat (pr_num a)).

(** sourcehook_impl_cproto.h 35-43: IntPassInfo::operator== (pCopyCtor is not
    compared). *)
Definition passinfo_eqb (a b : passinfo) : bool :=
  (pi_size a =? pi_size b) && (pi_type a =? pi_type b) && (pi_flags a =? pi_flags b)
  && (pi_normal a =? pi_normal b) && (pi_dtor a =? pi_dtor b)
  && (pi_assign a =? pi_assign b).

(** sourcehook_impl_cproto.cpp 125-142: CProto::ExactlyEqual *)
Definition exactly_equal (a b : proto) : option bool :=
  if negb (pr_version a =? pr_version b) || negb (pr_num a =? pr_num b)
     || negb (pr_conv a =? pr_conv b) || negb (passinfo_eqb (pr_ret a) (pr_ret b))
  then Some false
  else params_loop passinfo_eqb (pr_params a) (pr_params b) 0 (Z.to_nat (pr_num a)).
