(** C76: where Metamod looks for plugins. *)
From Coq Require Import List Bool String Lia.
From Verif Require Import CfgModel CfgSpec CfgProofs.
Import ListNotations.
Local Open Scope string_scope.

(** At every moment plugins are loaded from exactly the expected place, in every session in which the
    variables are not set to the empty text (on Source 1: in every session). *)
Theorem C76_places_partial : forall e l, eng e = Source1 \/ Forall nonempty l ->
  exists s, session e l = Some s /\ loads s = expected e l.
Proof. exact session_spec. Qed.
Print Assumptions C76_places_partial.

Definition one (k v : string) : string -> option string := fun x => if String.eqb x k then Some v else None.
Definition none : string -> option string := fun _ => None.
Definition srv2 : env := Env Source2 true none none false "/game".
Definition srv1 : env := Env Source1 true none (one "mm_basedir" "mm") true "/game".
Example C76_some : Forall nonempty [SetFile "a.ini"; LevelEnds; LevelEnds; Refresh] /\
  expected srv2 [SetFile "a.ini"; LevelEnds; LevelEnds] =
    [("/game/addons/metamod/metaplugins.ini", "/game/addons/metamod"); ("/game/a.ini", "/game/addons/metamod")] /\
  expected srv1 [SetDir ""; GameStarts; LevelEnds; Refresh] =
    [("/game/addons/metamod/metaplugins.ini", "/game/mm"); ("/game/addons/metamod/metaplugins.ini", "/game/")].
Proof. split; [repeat constructor; discriminate|]. split; reflexivity. Qed.

(** If the command line says nothing, or says what the variables hold, plugins are loaded from one place only,
    as long as nobody changes the variables. *)
Theorem C76_same_place : forall e l, over e defaults = defaults -> forallb (fun o => negb (changes o)) l = true ->
  exists s, session e l = Some s /\ forall p, In p (loads s) -> p = at_ e defaults.
Proof.
  intros e l O H. destruct (session_spec e l) as (s & S & L).
  { right. apply Forall_forall. intros o I. rewrite forallb_forall in H. specialize (H o I).
    destruct o; try discriminate H; split; discriminate. }
  exists s. split; [exact S|]. intros p I. rewrite L in I. unfold expected in I. destruct (vsp e).
  - eapply expect_same; eassumption.
  - rewrite O in I. destruct I as [<-|I]; [reflexivity|]. eapply expect_same; eassumption.
Qed.
Print Assumptions C76_same_place.
Example C76_same_some : over srv2 defaults = defaults /\ List.length (expected srv2 [LevelEnds; LevelEnds; Refresh]) = 3.
Proof. split; reflexivity. Qed.

(** Refuted: "an empty variable means the default" holds for the first load only (there for Source 2);
    later loads of Source 2 pass a null pointer to "%s": undefined. *)
Theorem C76_empty_refuted :
  session srv2 [SetFile ""; Refresh] = None /\ session srv2 [SetDir ""; LevelEnds; LevelEnds] = None /\
  (exists s, session (Env Source2 true none none true "/game") [SetFile ""; SetDir ""; LevelEnds] = Some s /\
     loads s = [at_ srv2 defaults]).
Proof. split; [reflexivity|]. split; [reflexivity|]. eexists. split; reflexivity. Qed.
Print Assumptions C76_empty_refuted.

(** Refuted: "the place given on the command line is used": only by the first load, if the engine does not
    also set the variable. *)
Theorem C76_later_refuted : exists s,
  session (Env Source2 true (one "mm_pluginsfile" "mine.ini") none false "/game") [LevelEnds; LevelEnds] = Some s /\
  loads s = [("/game/mine.ini", "/game/addons/metamod"); ("/game/addons/metamod/metaplugins.ini", "/game/addons/metamod")].
Proof. eexists. split; reflexivity. Qed.
Print Assumptions C76_later_refuted.

(** Refuted: "GetCommandLineValue gives the default when nothing is found" - not without ICvar on Source 1. *)
Theorem C76_default_refuted : forall cmd p v m def,
  GetCommandLineValue (Env Source1 false p cmd v m) "mm_basedir" (Some def) = None.
Proof. reflexivity. Qed.
Print Assumptions C76_default_refuted.
(** It does in all other cases. *)
Theorem C76_default : forall e key def, eng e = Source2 \/ icvar e = true \/ signed key = true ->
  GetCommandLineValue e key (Some def) <> None.
Proof.
  intros e key def H. unfold GetCommandLineValue, or_def.
  destruct (eng e); [|destruct (parm e key); discriminate].
  destruct (signed key); [destruct (parm e key); discriminate|].
  destruct (icvar e); [destruct (cvarcmd e key); discriminate|]. exfalso. destruct H as [H|[H|H]]; discriminate H.
Qed.
Print Assumptions C76_default.
