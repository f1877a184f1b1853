(** What a prototype built call by call describes. *)
From Coq Require Import List ZArith Bool.
From Verif Require Import ProtoModel PibModel.
Import ListNotations.
Local Open Scope Z_scope.

(** The parameters in the order of the calls; the last return type. *)
Fixpoint params_of (os : list bop) : list desc :=
  match os with
  | [] => []
  | Param d :: r => d :: params_of r
  | _ :: r => params_of r
  end.
Definition ret_of (os : list bop) : desc :=
  fold_left (fun a o => match o with SetRet d => d | _ => a end) os (Desc 0 0 0 0 0 0 0).

(** [p] says what [d] says, and in its flags which of the functions there are. *)
Record describes (p : passinfo) (d : desc) : Prop := {
  d_size : pi_size p = ds_size d;
  d_type : pi_type p = ds_type d;
  d_normal : pi_normal p = ds_normal d;
  d_copy : pi_copy p = ds_copy d;
  d_dtor : pi_dtor p = ds_dtor d;
  d_assign : pi_assign p = ds_assign d;
  d_flags : forall i, 0 <= i -> Z.testbit (pi_flags p) i =
    Z.testbit (ds_flags d) i || ((i =? 2) && negb (ds_dtor d =? 0)) || ((i =? 3) && negb (ds_normal d =? 0)) ||
    ((i =? 4) && negb (ds_assign d =? 0)) || ((i =? 5) && negb (ds_copy d =? 0)) }.
