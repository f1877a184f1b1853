(** What the engine expects of the server plugin callbacks: the interface IServerPluginCallbacks of
    its branch.  Written from the interface, not from the loader: ClientFullyConnect stands behind
    ClientActive in the branches which have it, and ClientCommand takes a CCommand except in the
    first two. *)
From Coq Require Import List Bool ZArith.
From Verif Require Import EngModel VspModel.
Import ListNotations.
Local Open Scope nat_scope.

(** branches which have ClientFullyConnect *)
Definition has_fully_connect (b : backend) : Prop :=
  In b [AlienSwarm; Portal2; CSGO; Blade; Insurgency; DOI; MCV].
(** branches whose ClientCommand has no CCommand *)
Definition plain_command (b : backend) : Prop := In b [Episode1; DarkMessiah].

Definition before_connect : list fn :=
  [fLoad; fUnload; fPause; fUnPause; fGetPluginDescription; fLevelInit; fServerActivate; fGameFrame;
   fLevelShutdown; fClientActive].
Definition after_connect (command : fn) : list fn :=
  [fClientDisconnect; fClientPutInServer; fSetCommandClient; fClientSettingsChanged; fClientConnect;
   command; fNetworkIDValidated; fOnQueryCvarValueFinished].

(** [layout b l]: [l] is the order of the functions in the interface of the branch [b] *)
Inductive layout (b : backend) : list fn -> Prop :=
| layout_intro : forall mid command,
    (has_fully_connect b /\ mid = [fClientFullyConnect] \/ ~ has_fully_connect b /\ mid = []) ->
    (plain_command b /\ command = fClientCommand \/ ~ plain_command b /\ command = fClientCommandArgs) ->
    layout b (before_connect ++ mid ++ after_connect command).

(** every function which the engine of branch [b] can call is found where the engine looks for it *)
Definition serves (b : backend) (table : list fn) : Prop :=
  forall l, layout b l -> forall i f, nth_error l i = Some f -> nth_error table i = Some f.

(** a call of Load which came as far as editing the table *)
Definition edits (x : out) : Prop :=
  match x with OLoad Refused | OLoad NoEngine => False | OLoad _ => True | _ => False end.
Definition loads (x : out) : Prop := match x with OLoad (Loaded _ _) => True | _ => False end.
Definition given (x : out) : Prop := x = OCallbacks true.

(** at most one of the results satisfies [P] *)
Inductive at_most_one (P : out -> Prop) : list out -> Prop :=
| amo_none : forall l, Forall (fun x => ~ P x) l -> at_most_one P l
| amo_one : forall l1 x l2, P x -> Forall (fun x => ~ P x) l1 -> Forall (fun x => ~ P x) l2 ->
    at_most_one P (l1 ++ x :: l2).

Definition no_game (o : op) : Prop := match o with GameInit _ | GameShutdown => False | _ => True end.
