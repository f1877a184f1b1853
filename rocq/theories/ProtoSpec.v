(** What prototype compatibility means, independently of the loops. *)
From Coq Require Import ZArith List.
From Verif Require Import ProtoModel.
Import ListNotations.
Open Scope Z_scope.

(** number of bytes a value of this kind occupies when passed *)
Definition passed_by_reference (p : passinfo) : Prop := Z.testbit (pi_flags p) 1 = true.

Definition passed_size (p : passinfo) (n : Z) : Prop :=
  (passed_by_reference p /\ n = 8) \/ (~ passed_by_reference p /\ n = pi_size p).

Definition same_passed_size (p q : passinfo) : Prop :=
  exists n, passed_size p n /\ passed_size q n.

(** Two known kinds must agree; an unknown kind agrees with anything of the
    same size. *)
Definition params_agree (p q : passinfo) : Prop :=
  same_passed_size p q /\
  (pi_type p = 0 \/ pi_type q = 0 \/ (pi_type p = pi_type q /\ pi_flags p = pi_flags q)).

Definition conv_agree (c d : Z) : Prop := c = 0 \/ d = 0 \/ c = d.

Definition compatible (a b : proto) : Prop :=
  0 <= pr_version a /\ 0 <= pr_version b /\
  conv_agree (pr_conv a) (pr_conv b) /\
  same_passed_size (pr_ret a) (pr_ret b) /\
  Forall2 params_agree (pr_params a) (pr_params b).

(** Everything that a pass description says except the address of the copy
    constructor. *)
Definition same_but_copyctor (p q : passinfo) : Prop :=
  exists c, q = PassInfo (pi_size p) (pi_type p) (pi_flags p) (pi_normal p) c
                         (pi_dtor p) (pi_assign p).

Definition identical (a b : proto) : Prop :=
  pr_version a = pr_version b /\ pr_conv a = pr_conv b /\
  same_but_copyctor (pr_ret a) (pr_ret b) /\
  Forall2 same_but_copyctor (pr_params a) (pr_params b).
