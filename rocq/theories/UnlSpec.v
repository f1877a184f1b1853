(** Who is expected to be told that a console object goes away. *)
From Coq Require Import List ZArith Bool.
From Verif Require Import UnlModel.
Import ListNotations.
Local Open Scope Z_scope.

(** Every plugin has one of the five statuses, and one that is loaded has an API. *)
Definition sound (ps : list plug) : Prop :=
  forall p, In p ps -> exists st, p_status p = Some st /\
    In st [Pl_NotFound; Pl_Error; Pl_Refused; Pl_Paused; Pl_Running] /\
    (st = Pl_Paused \/ st = Pl_Running -> p_ver p <> None).

(** How often something is in the trace. *)
Definition same (a b : event) : bool :=
  match a, b with
  | Told l h i k c, Told l' h' i' k' c' =>
      (l =? l') && (match h, h' with OldWay, OldWay | NewWay, NewWay => true | _, _ => false end) &&
      (i =? i') && eqb k k' && (c =? c')
  | Gone k c, Gone k' c' => eqb k k' && (c =? c')
  | _, _ => false
  end.
Fixpoint times (a : event) (t : list event) : nat :=
  match t with [] => O | b :: r => ((if same a b then 1 else 0) + times a r)%nat end.
Fixpoint occ (x : Z) (l : list Z) : nat :=
  match l with [] => O | y :: r => ((if (x =? y)%Z then 1 else 0) + occ x r)%nat end.

(** How often listener [l] is registered with loaded plugins other than [but] that know
    the way [h]. *)
Definition ready (p : plug) (h : how) : bool :=
  match p_status p, p_ver p with
  | Some st, Some v =>
      ((st =? Pl_Paused) || (st =? Pl_Running)) &&
      match h with OldWay => (12 <=? v) && (v <=? 16) | NewWay => 17 <=? v end
  | _, _ => false
  end.
Fixpoint ears (ps : list plug) (but : Z -> bool) (l : Z) (h : how) : nat :=
  match ps with
  | [] => O
  | p :: r => ((if negb (but (p_id p)) && ready p h then occ l (p_events p) else 0) + ears r but l h)%nat
  end.

(** In every trace, whoever is told of an object is told before it goes: between a telling
    and the next going there is no other object. *)
Fixpoint in_time (t : list event) : Prop :=
  match t with
  | [] => True
  | Gone _ _ :: r => in_time r
  | Told _ _ _ k c :: r =>
      (match r with
       | Told _ _ _ k' c' :: _ | Gone k' c' :: _ => k' = k /\ c' = c
       | [] => False
       end) /\ in_time r
  end.

(** The plugin an API pointer belongs to; NULL belongs to nobody. *)
Definition owner (ps : list plug) (api : Z) : option plug :=
  hd_error (filter (fun p => negb (p_api p =? 0) && (p_api p =? api)) ps).
