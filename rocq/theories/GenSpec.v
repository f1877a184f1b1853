(** What users of generated hook managers rely on, in terms of what they see: the calls,
    the addresses returned and the managers destroyed. *)
From Coq Require Import List ZArith Bool.
From Verif Require Import ProtoModel ProtoSpec GenModel.
Import ListNotations.
Local Open Scope Z_scope.

(** How often a manager was handed out and not yet given back.  A release of something
    that nobody holds does not count. *)
Definition count_event (f : Z) (n : Z) (e : gev) : Z :=
  match e with
  | Made _ _ _ g => if g =? f then n + 1 else n
  | Released g _ => if g =? f then Z.max 0 (n - 1) else n
  end.
Definition balance (f : Z) (log : list gev) : Z := fold_left (count_event f) log 0.

(** The same prototype (up to the copy constructors, see C25 and C54_copy_ctor_refuted)
    and the same place in the vtable. *)
Definition same_request (r1 : option rawproto) (o1 i1 : Z) (r2 : option rawproto) (o2 i2 : Z) : Prop :=
  (exists p1 p2, fill r1 = Some p1 /\ fill r2 = Some p2 /\ identical p1 p2) /\ o1 = o2 /\ i1 = i2.

(** The manager [f] is held all along [mid], which starts after [pre]. *)
Definition held_throughout (f : Z) (pre mid : list gev) : Prop :=
  forall m1 m2, mid = m1 ++ m2 -> 0 < balance f (pre ++ m1).

(** What can be hooked by generated code. *)
Definition ok_pass (p : passinfo) : Prop :=
  (pi_type p = 1 \/ pi_type p = 2 \/ pi_type p = 3) /\
  (Z.testbit (pi_flags p) 0 = true \/ Z.testbit (pi_flags p) 1 = true) /\
  (pi_type p = 3 -> Z.testbit (pi_flags p) 0 = true ->
     (Z.testbit (pi_flags p) 2 = true -> pi_dtor p <> 0) /\
     (Z.testbit (pi_flags p) 3 = true -> pi_normal p <> 0) /\
     (Z.testbit (pi_flags p) 4 = true -> pi_assign p <> 0) /\
     (Z.testbit (pi_flags p) 5 = true -> pi_copy p <> 0)).

Definition ok_proto (p : proto) : Prop :=
  1 <= pr_version p /\
  (exists v : bool, exists w : bool,
     pr_conv p = 1 + (if v then 65536 else 0) + (if w then 131072 else 0)) /\
  (pi_size (pr_ret p) = 0 \/ ok_pass (pr_ret p)) /\
  Forall ok_pass (pr_params p).

(** The allocator does not place two living managers at one address (C31), and never
    at 0. *)
Fixpoint honest (b : build) (l : list context) (ops : list gop) : Prop :=
  match ops with
  | [] => True
  | o :: ops =>
      match o with Make _ _ _ a => a <> 0 /\ ~ In a (map c_pub l) | Release _ => True end
      /\ match gstep b l o with Some (l', _) => honest b l' ops | None => True end
  end.

(** C58: where a value of this kind is returned. *)
Definition in_memory (flags : Z) : Prop := Z.testbit flags 6 = true /\ Z.testbit flags 7 = false.
Definition in_register (flags : Z) : Prop := Z.testbit flags 6 = false /\ Z.testbit flags 7 = true.

(** by value, by reference, kind of value *)
Definition by_value (p : passinfo) : Prop := Z.testbit (pi_flags p) 0 = true.
Definition says_where (p : passinfo) : Prop := Z.testbit (pi_flags p) 6 = true \/ Z.testbit (pi_flags p) 7 = true.
Definition is_object (p : passinfo) : Prop := pi_type p = 3.
Definition is_scalar (p : passinfo) : Prop := pi_type p = 1 \/ pi_type p = 2.
(** a destructor, a constructor or a copy constructor *)
Definition has_special (p : passinfo) : Prop :=
  Z.testbit (pi_flags p) 2 = true \/ Z.testbit (pi_flags p) 3 = true \/ Z.testbit (pi_flags p) 5 = true.

(** C59: by-value objects with a destructor are passed by reference by gcc. *)
Definition forced_by_reference (b : build) (p : passinfo) : Prop :=
  (b = Gcc32 \/ b = Apple32) /\ is_object p /\ by_value p /\ Z.testbit (pi_flags p) 2 = true.
