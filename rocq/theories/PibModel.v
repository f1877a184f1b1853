(** Model of CProtoInfoBuilder (core/sourcehook/sourcehook_pibuilder.h 20-105): a
    prototype is described call by call and handed out as a ProtoInfo pointer.  The two
    vectors are those of VecModel, each with its own heap. *)
From Coq Require Import List ZArith Bool.
From Verif Require Import ListModel VecModel ProtoModel.
Import ListNotations.
Local Open Scope Z_scope.

(** sourcehook.h 203-206 *)
Definition PassFlag_ODtor : Z := 4.
Definition PassFlag_OCtor : Z := 8.
Definition PassFlag_AssignOp : Z := 16.
Definition PassFlag_CCtor : Z := 32.

(** The arguments of SetReturnType and AddParam. *)
Record desc := Desc { ds_size : Z; ds_type : Z; ds_flags : Z; ds_normal : Z; ds_copy : Z; ds_dtor : Z; ds_assign : Z }.

(** 46-56, 76-86: flags for the functions that are not NULL. *)
Definition with_flags (d : desc) : Z :=
  let f := ds_flags d in
  let f := if ds_normal d =? 0 then f else Z.lor f PassFlag_OCtor in
  let f := if ds_copy d =? 0 then f else Z.lor f PassFlag_CCtor in
  let f := if ds_dtor d =? 0 then f else Z.lor f PassFlag_ODtor in
  if ds_assign d =? 0 then f else Z.lor f PassFlag_AssignOp.

Definition pass_of (d : desc) : rawpass := RawPass (ds_size d) (ds_type d) (with_flags d).
Definition pass2_of (d : desc) : rawpass2 := RawPass2 (ds_normal d) (ds_copy d) (ds_dtor d) (ds_assign d).

Section Builder.
Variable alloc1 : @vheap rawpass -> nat.
Variable alloc2 : @vheap rawpass2 -> nat.

(** 22-24: m_Params, m_Params2 and m_PI (whose two pointers are [p1], [p2]). *)
Record pib := Pib { h1 : @vheap rawpass; v1 : vec; h2 : @vheap rawpass2; v2 : vec;
  num : Z; ret : rawpass; ret2 : rawpass2; conv : Z; p1 : nat; p2 : nat }.

Definition push_both (b : pib) (x : rawpass) (y : rawpass2) : option pib :=
  do (g1, w1) <- push_vec alloc1 (h1 b) (v1 b) (Val x);
  do (g2, w2) <- push_vec alloc2 (h2 b) (v2 b) (Val y);
  Some (Pib g1 w1 g2 w2 (num b) (ret b) (ret2 b) (conv b) (p1 b) (p2 b)).

Definition no_heap {T} : @vheap T := VHeap (fun _ => None) 0%nat.

(** 26-41: the constructor; element 0 is the dummy with size 1 (the version). *)
Definition create (cc : Z) : option pib :=
  push_both (Pib no_heap vec0 no_heap vec0 0 (RawPass 0 0 0) (RawPass2 0 0 0 0) cc 0 0) (RawPass 1 0 0) (RawPass2 0 0 0 0).

Inductive bop := SetRet (d : desc) | Param (d : desc) | Convert.

Definition bstep (b : pib) (o : bop) : option pib :=
  match o with
  | SetRet d =>          (* 43-66 *)
      Some (Pib (h1 b) (v1 b) (h2 b) (v2 b) (num b) (pass_of d) (pass2_of d) (conv b) (p1 b) (p2 b))
  | Param d =>           (* 68-98 *)
      do b1 <- push_both b (pass_of d) (pass2_of d);
      Some (Pib (h1 b1) (v1 b1) (h2 b1) (v2 b1) (num b1 + 1) (ret b1) (ret2 b1) (conv b1) (p1 b1) (p2 b1))
  | Convert =>           (* 100-105: operator ProtoInfo*; [0] of a vector must be there *)
      if (m_used (v1 b) =? 0) || (m_used (v2 b) =? 0) then None else
      Some (Pib (h1 b) (v1 b) (h2 b) (v2 b) (num b) (ret b) (ret2 b) (conv b) (m_data (v1 b)) (m_data (v2 b)))
  end.

Fixpoint brun (b : pib) (os : list bop) : option pib :=
  match os with
  | [] => Some b
  | o :: r => do b1 <- bstep b o; brun b1 r
  end.

(** Elements i, i+1, ... (n of them) of an array. *)
Fixpoint read_from {T} (h : @vheap T) (p : nat) (i : Z) (n : nat) : option (list T) :=
  match n with
  | O => Some []
  | S m => do x <- rd h p i; do r <- read_from h p (i + 1) m; Some (x :: r)
  end.

(** What somebody with the ProtoInfo pointer finds. *)
Definition seen (b : pib) : option rawproto :=
  do a1 <- read_from (h1 b) (p1 b) 0 (S (Z.to_nat (num b)));
  do a2 <- read_from (h2 b) (p2 b) 0 (S (Z.to_nat (num b)));
  Some (RawProto (num b) (ret b) a1 (conv b) (ret2 b) a2).
End Builder.
