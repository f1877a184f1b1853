(** What a plugin ought to be told. *)
From Coq Require Import List ZArith Bool.
From Verif Require Import ToldModel.
Import ListNotations.
Local Open Scope Z_scope.

(** Which characters stand between folders: on Windows both slashes. *)
Definition sep_char (win : bool) (c : Z) : Prop := c = 47 \/ (win = true /\ c = 92).
(** [p] is [file]'s folder, with the system's own separator (and, as everywhere, backslashes
    turned to slashes on the other systems). *)
Definition folder_of (win : bool) (file p : text) : Prop :=
  exists d s name, file = d ++ s :: name /\
    (sep_char win s \/ (win = false /\ s = 92)) /\
    (forall c, In c name -> ~ sep_char win c /\ c <> 92) /\
    Forall2 (fun x y => y = if win then (if x =? 47 then 92 else x) else (if x =? 92 then 47 else x)) d p.
(** [d] is the last part of [base]. *)
Definition last_part (win : bool) (base d : text) : Prop :=
  exists front s, base = front ++ s :: d /\ s = (if win then 92 else 47) /\ ~ In s d.

(** The engines a plugin may be told, in order. *)
Definition engines (valve : bool) (build : Z) : list Z := build :: if valve then [6; 3] else [].

(** The tries: each engine in order until the plugin answers something. *)
Fixpoint tries (make : Z -> Z) (es : list Z) : list Z * Z :=
  match es with
  | [] => ([], 0)
  | e :: r => if make e =? 0 then (let '(l, a) := tries make r in (e :: l, a)) else ([e], make e)
  end.
