(** Model of CHookManagerAutoGen (core/sourcehook/sourcehook_hookmangen.cpp:47-104)
    and of the checks made before code is generated
    (core/sourcehook/sourcehook_hookmangen_x86.cpp:1795-1968,
    core/sourcehook/sourcehook_hookmangen_x86_64.cpp:215-290, 1229-1292, 1397-1421).

    Not modelled: the generated machine code.  GeneratePubFunc is an oracle that says
    at which address the new manager's public function lies. *)
From Coq Require Import List ZArith Bool.
From Verif Require Import ListModel ProtoModel.
Import ListNotations.
Local Open Scope Z_scope.

(** The builds that differ here: 32 bits with gcc on Linux, with gcc on macOS and with
    MSVC, 64 bits with MSVC; Linux with 64 bits has no generator
    (sourcehook_hookmangen.cpp:63-64). *)
Inductive build := Gcc32 | Apple32 | Msvc32 | Msvc64 | Linux64.

(** sourcehook.h:201-211 *)
Definition PassFlag_ODtor : Z := 4.
Definition PassFlag_OCtor : Z := 8.
Definition PassFlag_AssignOp : Z := 16.
Definition PassFlag_CCtor : Z := 32.
Definition PassFlag_RetMem : Z := 64.
Definition PassFlag_RetReg : Z := 128.
(** sourcehook.h:193-195 *)
Definition PassType_Basic : Z := 1.
Definition PassType_Float : Z := 2.
Definition PassType_Object : Z := 3.
(** sourcehook.h:235, 239-240 *)
Definition CallConv_ThisCall : Z := 1.
Definition CallConv_HasVafmt : Z := Z.lor (2 ^ 16) (2 ^ 17).
(** sourcehook_hookmangen_x86.h:1615 *)
Definition PassFlag_ForcedByRef : Z := 2 ^ 30.

(** flags & bits, as a condition *)
Definition has (flags bits : Z) : bool := negb (Z.land flags bits =? 0).
(** flags &= ~bit *)
Definition clear (flags bit : Z) : Z := Z.ldiff flags bit.

Definition set_flags (p : passinfo) (f : Z) : passinfo :=
  PassInfo (pi_size p) (pi_type p) f (pi_normal p) (pi_copy p) (pi_dtor p) (pi_assign p).

(** sourcehook_hookmangen_x86.cpp:1836-1893, sourcehook_hookmangen_x86_64.cpp:1229-1287:
    AutoDetectRetType.  In the 64-bit version [&] binds tighter than [|]
    (line 1268), which is kept here. *)
Definition auto_ret_flags (b : build) (p : passinfo) : Z :=
  let f := pi_flags p in
  if match b with Msvc64 => pi_size p =? 0 | _ => false end then f
  else if has f PassFlag_ByVal then
    if (pi_type p =? PassType_Basic) || (pi_type p =? PassType_Float) then
      if pi_size p <=? 8 then Z.lor (clear f PassFlag_RetMem) PassFlag_RetReg
      else Z.lor (clear f PassFlag_RetReg) PassFlag_RetMem
    else if pi_type p =? PassType_Object then
      if has f (Z.lor PassFlag_RetMem PassFlag_RetReg) then f
      else
        match b with
        | Apple32 =>
            if (Z.land (pi_size p) (pi_size p - 1) =? 0) && (pi_size p <=? 8)
            then Z.lor f PassFlag_RetReg
            else Z.lor f PassFlag_RetMem
        | Msvc64 =>
            let unconventionalsize := (pi_size p =? 3) || (negb (pi_size p =? 8) && (4 <? pi_size p)) in
            let hasSpecialFunctions :=
              negb (Z.lor (Z.lor (Z.land f PassFlag_OCtor) PassFlag_ODtor) PassFlag_CCtor =? 0) in
            if unconventionalsize || hasSpecialFunctions
            then Z.lor f PassFlag_RetMem
            else Z.lor f PassFlag_RetReg
        | _ => Z.lor f PassFlag_RetMem
        end
    else f
  else Z.lor (clear f PassFlag_RetMem) PassFlag_RetReg.

Definition auto_ret (b : build) (p : passinfo) : passinfo := set_flags p (auto_ret_flags b p).

(** sourcehook_hookmangen_x86.cpp:1895-1909, sourcehook_hookmangen_x86_64.cpp:1289-1291:
    AutoDetectParamFlags, for one parameter *)
Definition auto_param (b : build) (p : passinfo) : passinfo :=
  match b with
  | Gcc32 | Apple32 =>
      if (pi_type p =? PassType_Object) && has (pi_flags p) PassFlag_ByVal && has (pi_flags p) PassFlag_ODtor
      then set_flags p (Z.lor (pi_flags p) PassFlag_ForcedByRef)
      else p
  | _ => p
  end.

(** sourcehook_hookmangen_x86.cpp:1795-1834, sourcehook_hookmangen_x86_64.cpp:262-290 *)
Definition pass_supported (p : passinfo) : bool :=
  if negb (pi_type p =? PassType_Basic) && negb (pi_type p =? PassType_Float)
     && negb (pi_type p =? PassType_Object) then false
  else if (pi_type p =? PassType_Object) && has (pi_flags p) PassFlag_ByVal
          && ((has (pi_flags p) PassFlag_CCtor && (pi_copy p =? 0))
              || (has (pi_flags p) PassFlag_ODtor && (pi_dtor p =? 0))
              || (has (pi_flags p) PassFlag_AssignOp && (pi_assign p =? 0))
              || (has (pi_flags p) PassFlag_OCtor && (pi_normal p =? 0))) then false
  else if Z.land (pi_flags p) (Z.lor PassFlag_ByVal PassFlag_ByRef) =? 0 then false
  else true.

(** The working copy of the prototype after lines 1927-1928 *)
Definition auto_detect (b : build) (p : proto) : proto :=
  Proto (pr_version p) (pr_num p) (auto_ret b (pr_ret p)) (map (auto_param b) (pr_params p)) (pr_conv p).

(** sourcehook_hookmangen_x86.cpp:1911-1952, sourcehook_hookmangen_x86_64.cpp:215-260:
    Generate; [addr] is the answer of GeneratePubFunc, 0 is NULL *)
Definition generate (b : build) (p : proto) (addr : Z) : Z :=
  if pr_version p <? 1 then 0
  else
    let p := auto_detect b p in
    if negb (Z.ldiff (pr_conv p) CallConv_HasVafmt =? CallConv_ThisCall) then 0
    else if negb (pi_size (pr_ret p) =? 0) && negb (pass_supported (pr_ret p)) then 0
    else if forallb pass_supported (pr_params p) then addr else 0.

(** BuildProtoInfo (sourcehook_hookmangen_x86.cpp:87-124,
    sourcehook_hookmangen_x86_64.cpp:140-177): the description that the generated
    public function passes to SetInfo.  Element 0 of the second array is not
    initialised; [junk0] stands for its contents. *)
Definition raw_of (p : passinfo) : rawpass := RawPass (pi_size p) (pi_type p) (pi_flags p).
Definition raw2_of (p : passinfo) : rawpass2 := RawPass2 (pi_normal p) (pi_copy p) (pi_dtor p) (pi_assign p).
Definition build_proto_info (junk0 : rawpass2) (p : proto) : rawproto :=
  RawProto (pr_num p) (raw_of (pr_ret p)) (RawPass 1 0 0 :: map raw_of (pr_params p)) (pr_conv p)
           (raw2_of (pr_ret p)) (junk0 :: map raw2_of (pr_params p)).

(** StoredContext (sourcehook_hookmangen.h:59-63) with the members of its GenContext
    that matter: m_OrigProto, m_VtblOffs, m_VtblIdx, m_GeneratedPubFunc *)
Record context := Ctx { c_ref : Z; c_proto : proto; c_offs : Z; c_idx : Z; c_pub : Z }.
Definition set_ref (c : context) (n : Z) : context := Ctx n (c_proto c) (c_offs c) (c_idx c) (c_pub c).

Definition int_max : Z := 2147483647.

(** GenContext::Equal(proto, offs, idx), sourcehook_hookmangen_x86.cpp:1961-1964;
    [None]: the prototypes cannot be compared (see ProtoModel) *)
Definition ctx_equal (c : context) (p : proto) (offs idx : Z) : option bool :=
  do e <- exactly_equal (c_proto c) p;
  Some (e && (c_offs c =? offs) && (c_idx c =? idx)).

(** sourcehook_hookmangen.cpp:67-74: the loop of MakeHookMan.  [Some None]: no
    context found; [None]: undefined (the counter overflows, or ctx_equal) *)
Fixpoint make_loop (l : list context) (p : proto) (offs idx : Z) : option (option (list context * Z)) :=
  match l with
  | [] => Some None
  | c :: l =>
      do e <- ctx_equal c p offs idx;
      if e : bool then
        if c_ref c =? int_max then None
        else Some (Some (set_ref c (c_ref c + 1) :: l, c_pub c))
      else
        do r <- make_loop l p offs idx;
        Some (match r with Some (l', f) => Some (c :: l', f) | None => None end)
  end.

(** sourcehook_hookmangen.cpp:61-88: MakeHookMan; [addr]: where the generator would
    put the public function.  The constructor of the new context fills its prototypes
    from the same description. *)
Definition make_hook_man (b : build) (l : list context) (raw : option rawproto) (offs idx addr : Z)
  : option (list context * Z) :=
  match b with
  | Linux64 => Some (l, 0)
  | _ =>
      do p <- fill raw;
      do r <- make_loop l p offs idx;
      match r with
      | Some (l', f) => Some (l', f)
      | None =>
          let f := generate b p addr in
          if f =? 0 then Some (l, 0)
          else Some (l ++ [Ctx 1 p offs idx f], f)
      end
  end.

(** sourcehook_hookmangen.cpp:90-104: ReleaseHookMan.  The second component are the
    managers destroyed by erase (their code and data are freed). *)
Fixpoint release_hook_man (l : list context) (f : Z) : list context * list Z :=
  match l with
  | [] => ([], [])
  | c :: l =>
      if c_pub c =? f then
        if c_ref c - 1 =? 0 then (l, [c_pub c])
        else (set_ref c (c_ref c - 1) :: l, [])
      else let '(l', d) := release_hook_man l f in (c :: l', d)
  end.

(** Histories.  What can be seen from outside: which call was made, what it returned,
    what it destroyed. *)
Inductive gop :=
| Make (raw : option rawproto) (offs idx addr : Z)
| Release (f : Z).

Inductive gev :=
| Made (raw : option rawproto) (offs idx : Z) (f : Z)
| Released (f : Z) (destroyed : list Z).

Definition gstep (b : build) (l : list context) (o : gop) : option (list context * gev) :=
  match o with
  | Make raw offs idx addr =>
      do r <- make_hook_man b l raw offs idx addr; Some (fst r, Made raw offs idx (snd r))
  | Release f => let '(l', d) := release_hook_man l f in Some (l', Released f d)
  end.

Fixpoint grun (b : build) (l : list context) (ops : list gop) : option (list context * list gev) :=
  match ops with
  | [] => Some (l, [])
  | o :: ops =>
      do r <- gstep b l o;
      do q <- grun b (fst r) ops;
      Some (fst q, snd r :: snd q)
  end.
