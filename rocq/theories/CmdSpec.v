(** What a user expects of the console: who registered what, and that it is there
    until it is taken away or until its plugin goes. *)
From Coq Require Import List ZArith Bool.
From Verif Require Import CmdModel.
Import ListNotations.
Local Open Scope Z_scope.

Inductive owner := Engine | Metamod | Nobody | Plugin (id : Z).

(** The things in the console, newest first, with their owner; and the plugins that
    are in the list, with their API. *)
Record view := View { things : list (owner * Z); loaded : list (Z * Z) }.

Definition who (v : view) (api : Z) : owner :=
  if api =? 0 then Nobody else
  match find (fun p => snd p =? api) (loaded v) with
  | Some p => Plugin (fst p)
  | None => Nobody
  end.

Definition not_of (id : Z) (t : owner * Z) : bool :=
  match fst t with Plugin i => negb (i =? id) | _ => true end.
Definition not_metamod (t : owner * Z) : bool :=
  match fst t with Metamod => false | _ => true end.

Definition spec_step (v : view) (o : op) : view :=
  match o with
  | EReg c => View ((Engine, c) :: things v) (loaded v)
  | MReg c => View ((Metamod, c) :: things v) (loaded v)
  | MRemoveAll => View (filter not_metamod (things v)) (loaded v)
  | Loaded id api => View (things v) (loaded v ++ [(id, api)])
  | PReg api c => View ((who v api, c) :: things v) (loaded v)
  | PUnreg api c => View (filter (fun t => negb (snd t =? c)) (things v)) (loaded v)
  | Refused id => View (filter (not_of id) (things v))
                       (map (fun p => if fst p =? id then (id, 0) else p) (loaded v))
  | Unload id => View (filter (not_of id) (things v)) (filter (fun p => negb (fst p =? id)) (loaded v))
  end.

Definition spec_run (v : view) (os : list op) : view := fold_left spec_step os v.
Definition nothing : view := View [] [].

(** The rules for the callers: nothing is registered while it is there, Metamod's own
    objects [mm] only by Metamod, and what a plugin registered is unregistered by no
    other plugin. *)
Section Rules.
Variable mm : Z -> bool.

Definition fresh (v : view) (c : Z) : Prop := c <> 0 /\ ~ In c (map snd (things v)).

Definition allowed (v : view) (o : op) : Prop :=
  match o with
  | EReg c => fresh v c /\ mm c = false
  | MReg c => fresh v c /\ mm c = true
  | PReg api c => fresh v c /\ mm c = false
  | PUnreg api c => forall i, In (Plugin i, c) (things v) -> who v api = Plugin i
  | Loaded id api => ~ In id (map fst (loaded v))
  | MRemoveAll | Refused _ | Unload _ => True
  end.

Fixpoint allowed_all (v : view) (os : list op) : Prop :=
  match os with
  | [] => True
  | o :: r => allowed v o /\ allowed_all (spec_step v o) r
  end.
End Rules.
