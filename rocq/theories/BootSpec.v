(** What is expected of the start: a description of traces which does not mention the flags. *)
From Coq Require Import List ZArith Bool.
From Verif Require Import BootModel.
Import ListNotations.
Local Open Scope nat_scope.

(** events of a kind, and their number *)
Definition is_initial (e : ev) : bool := match e with Initial => true | _ => false end.
Definition is_refresh (e : ev) : bool := match e with Refresh => true | _ => false end.
Definition is_all (e : ev) : bool := match e with AllLoaded => true | _ => false end.
Definition is_request (e : ev) : bool := match e with Request => true | _ => false end.
Definition is_command (e : ev) : bool := match e with Command => true | _ => false end.
Definition is_listening (e : ev) : bool := match e with Listening _ _ => true | _ => false end.
Definition is_started (e : ev) : bool := match e with GameStarted => true | _ => false end.
Definition is_end (e : ev) : bool := match e with LevelEnd => true | _ => false end.

Definition count (k : ev -> bool) (t : list ev) : nat := List.length (filter k t).
Definition has (k : ev -> bool) (t : list ev) : Prop := existsb k t = true.

(** every event of the kind [b] has one of the kind [a] before it *)
Definition before (a b : ev -> bool) (t : list ev) : Prop :=
  forall t1 e t2, t = t1 ++ e :: t2 -> b e = true -> has a t1.

(** the two ways to start *)
Definition no_start (o : op) : Prop := match o with DLLInit_Pre _ => False | _ => True end.
Definition vsp_ops (o : op) : Prop :=
  match o with DLLInit_Pre _ | DLLInit_Post _ | VspLoad _ _ _ => False | _ => True end.
Definition as_gamedll (l : list op) : Prop := exists a l', l = DLLInit_Pre a :: l' /\ Forall no_start l'.
Definition as_vsp (l : list op) : Prop := exists a cb v l', l = VspLoad a cb v :: l' /\ Forall vsp_ops l'.

(** the last pair of callbacks and version that was announced; the version -1 means the one before *)
Fixpoint announced (t : list ev) (cb : option nat) (v : Z) : option nat * Z :=
  match t with
  | [] => (cb, v)
  | Listening c w :: t => announced t (Some c) (if (w =? -1)%Z then v else w)
  | _ :: t => announced t cb v
  end.
