(** What the engine does with loop modes and what should be announced: no mention of hooks. *)
From Coq Require Import List Bool Arith String.
From Verif Require Import ProvModel.
Import ListNotations.
Local Open Scope nat_scope.

(** [reg]: factories registered under the name "game"; [live]: loop modes that exist, with their
    factory and whether it was registered as "game" when it made them. *)
Record eng := Eng { reg : obj -> bool; live : obj -> option (obj * bool) }.
Definition eng0 : eng := Eng (fun _ => false) (fun _ => None).
Definition upd {A} (f : obj -> A) (x : obj) (v : A) : obj -> A := fun y => if y =? x then v else f y.

(** What a sensible engine may do, and what is to be announced.  [cl]: there is an IServerGameClients. *)
Inductive lawful (cl : bool) (e : eng) : op2 -> eng -> list ann -> Prop :=
| l_register f : f <> 0 -> reg e f = false ->
    lawful cl e (Register "game" f) (Eng (upd (reg e) f true) (live e)) [OnGameInit]
| l_register_other n f : n <> "game"%string -> lawful cl e (Register n f) e []
| l_unregister f : (forall m, live e m <> Some (f, true)) ->
    lawful cl e (Unregister "game" f) (Eng (upd (reg e) f false) (live e)) []
| l_unregister_other n f : n <> "game"%string -> lawful cl e (Unregister n f) e []
| l_create f m : m <> 0 -> live e m = None ->
    lawful cl e (Create f m m) (Eng (reg e) (upd (live e) m (Some (f, reg e f)))) []
| l_destroy f m t : live e m = Some (f, t) ->
    lawful cl e (Destroy f m) (Eng (reg e) (upd (live e) m None)) []
| l_init m f t : live e m = Some (f, t) -> lawful cl e (Init m) e (if t then [OnLevelInit] else [])
| l_stop m f t : live e m = Some (f, t) -> lawful cl e (Stop m) e (if t then [OnLevelShutdown] else [])
| l_command c : lawful cl e (Command c) e [if cl && String.eqb c "meta" then OnClientMeta else Passed c].

Inductive lawful_run (cl : bool) : eng -> list op2 -> eng -> list ann -> Prop :=
| lr_nil e : lawful_run cl e [] e []
| lr_cons e o e1 a l e2 b : lawful cl e o e1 a -> lawful_run cl e1 l e2 b -> lawful_run cl e (o :: l) e2 (a ++ b).

(** Source 1 *)
Definition expected1 (cl : bool) (o : op1) : ann :=
  match o with
  | GGameInit => OnGameInit
  | GLevelInit => OnLevelInit
  | GLevelShutdown => OnLevelShutdown
  | GCommand c => if cl && String.eqb c "meta" then OnClientMeta else Passed c
  end.

(** everything needed is there *)
Definition complete2 (e : found) : Prop := f_engine e = true /\ f_icvar e = true /\ f_fs e = true /\ f_mgr e <> 0.
Definition complete1 (e : found) : Prop := f_engine e = true /\ f_icvar e = true.
