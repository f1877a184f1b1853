(** C70: the server plugin which the engine loads. *)
From Coq Require Import List ZArith Bool Lia.
From Verif Require Import EngModel VspModel VspSpec VspProofs VspRuns VspLib.
Import ListNotations.
Local Open Scope nat_scope.
Notation length := List.length.

Definition good (b : backend) : env := mkenv b true true true.
Definition bad_lib (b : backend) : env := mkenv b false true true.

(** After a Load that succeeded, every function which the engine calls is found where the engine of
    that branch looks for it -- provided no other Load of this process came as far as editing the
    table. *)
Theorem C70_slots_partial : forall ops outs s b v, run init ops = Some (outs, s) ->
  at_most_one edits outs -> In (OLoad (Loaded b v)) outs -> serves b (vt s).
Proof.
  intros ops outs s b v H A I. apply (run_serves ops init outs s b v); auto. exact init_sized.
Qed.
Print Assumptions C70_slots_partial.

(** ... two engines of different shape *)
Example C70_slots_ex :
  exists outs s, run init [GetCallbacks 1; Load (good TF2); Query] = Some (outs, s) /\
    at_most_one edits outs /\ In (OLoad (Loaded TF2 1)) outs /\
    nth_error (vt s) 10 = Some fClientDisconnect /\ nth_error (vt s) 15 = Some fClientCommandArgs.
Proof.
  eexists _, _. split; [vm_compute; reflexivity|]. split; [|split; [right; left; reflexivity|split; reflexivity]].
  apply (amo_one edits [OCallbacks true] (OLoad (Loaded TF2 1)) [OQuery QNull]); [exact I| |].
  - constructor; [exact (fun q => q)|constructor].
  - constructor; [exact (fun q => q)|constructor].
Qed.
Example C70_slots_ex2 :
  exists outs s, run init [GetCallbacks 2; Load (good CSGO)] = Some (outs, s) /\
    nth_error (vt s) 10 = Some fClientFullyConnect /\ nth_error (vt s) 16 = Some fClientCommandArgs.
Proof. eexists _, _. split; [vm_compute; reflexivity|]. split; reflexivity. Qed.

(** Without that proviso it fails: when a first Load does not find the core library, a second Load
    which succeeds edits the edited table again, and the engine calls the function that takes a
    CCommand in the place of NetworkIDValidated, and that of SetCommandClient reaches
    ClientSettingsChanged. *)
Theorem C70_slots_refuted : exists ops outs s,
  run init ops = Some (outs, s) /\ In (OLoad (Loaded TF2 2)) outs /\ ~ serves TF2 (vt s) /\
  nth_error (vt s) 12 = Some fClientSettingsChanged.
Proof.
  exists [GetCallbacks 2; Load (bad_lib TF2); GetCallbacks 2; Load (good TF2)].
  eexists _, _. split; [vm_compute; reflexivity|]. split; [right; right; right; left; reflexivity|].
  split; [|reflexivity]. intros H.
  assert (L : layout TF2 (before_connect ++ [] ++ after_connect fClientCommandArgs)).
  { constructor; right; (split; [|reflexivity]); unfold has_fully_connect, plain_command; cbn [In];
      intuition congruence. }
  specialize (H _ L 12 fSetCommandClient eq_refl). discriminate H.
Qed.
Print Assumptions C70_slots_refuted.

(** Load succeeds at most once. *)
Theorem C70_once : forall ops outs s, run init ops = Some (outs, s) -> at_most_one loads outs.
Proof. intros ops outs s H. apply (run_once ops init outs s init_sized H). Qed.
Print Assumptions C70_once.
Example C70_once_ex : exists s,
  run init [GetCallbacks 1; Load (good TF2); GetCallbacks 1; Load (good TF2)] =
  Some ([OCallbacks true; OLoad (Loaded TF2 1); OCallbacks false; OLoad Refused], s).
Proof. eexists. vm_compute. reflexivity. Qed.

(** A Load does something only if the callbacks were asked for since the last Load; it then passes on
    the version of the last request, which is at most 2. *)
Theorem C70_permission : forall ops outs s h1 e r h2, run init ops = Some (outs, s) ->
  combine ops outs = h1 ++ (Load e, OLoad r) :: h2 -> r <> Refused ->
  exists v p q, h1 = p ++ (GetCallbacks v, OCallbacks true) :: q /\
    Forall (fun x => ~ is_load (fst x) /\ snd x <> OCallbacks true) q /\
    (0 <= v mod 2 ^ 32 <= 2)%Z /\
    (forall b u, r = Loaded b u -> u = (v mod 2 ^ 32)%Z).
Proof.
  intros ops outs s h1 e r h2 H C NR.
  destruct (run_permission ops outs s H) as (_ & _ & P).
  destruct (P h1 e r h2 C NR) as (u & (v & p & q & E & F & EU & LU) & V).
  exists v, p, q. split; [exact E|]. split; [exact F|]. split.
  - split; [|rewrite <- EU; exact LU]. apply Z.mod_pos_bound. reflexivity.
  - intros b w ER. rewrite <- EU. eapply V; eauto.
Qed.
Print Assumptions C70_permission.
Example C70_permission_ex : exists outs s,
  run init [Load (good TF2); GetCallbacks 1; GetCallbacks 3; GetCallbacks (-1); Load (good TF2)] = Some (outs, s) /\
  outs = [OLoad Refused; OCallbacks true; OCallbacks false; OCallbacks false; OLoad (Loaded TF2 1)].
Proof. eexists _, _. split; [vm_compute; reflexivity|reflexivity]. Qed.

(** Without a game library: until a Load succeeds no library is open and there is no bridge, whatever
    failed; from then until Unload exactly the one library is open which the bridge points into;
    after Unload none is. *)
Theorem C70_library : forall ops outs s, Forall no_game ops -> run init ops = Some (outs, s) ->
  (Forall (fun x => ~ loads x) outs /\ opened s = [] /\ lib s = None /\ bridge s = None) \/
  (exists l1 e b v l2 o1 o2 h, ops = l1 ++ Load e :: l2 /\ outs = o1 ++ OLoad (Loaded b v) :: o2 /\
     length o1 = length l1 /\ bridge s = Some h /\
     (~ In Unload l2 /\ opened s = [h] /\ lib s = Some h \/
      In Unload l2 /\ opened s = [] /\ lib s = None)).
Proof.
  intros ops outs s F H.
  destruct (idle_run ops init outs s init_sized) as [(N & I)|(l1 & e & b & v & l2 & o1 & o2 & E1 & E2 & LN & C)]; auto.
  - repeat split; reflexivity.
  - left. destruct I as (_ & B & L & O). auto.
  - right.
    destruct C as [(NU & _ & _ & h & B & L & O)|(IU & _ & _ & h & B & L & O)];
      exists l1, e, b, v, l2, o1, o2, h; repeat (split; [assumption|]); auto.
Qed.
Print Assumptions C70_library.
Example C70_library_ex : exists outs s,
  run init [GetCallbacks 2; Load (mkenv TF2 true false true); GetCallbacks 2; Load (mkenv TF2 true true false);
            GetCallbacks 2; Load (good TF2); Describe; Unload] = Some (outs, s) /\
  next s = 3 /\ opened s = [].
Proof. eexists _, _. split; [vm_compute; reflexivity|]. split; reflexivity. Qed.

(** With a game library (DLLInit accepted the core) nothing the engine does with the server plugin
    opens or closes a library, and none of it is undefined. *)
Theorem C70_listener : forall b ops, Forall no_game ops ->
  exists outs s, run init (GameInit b :: ops) = Some (outs, s) /\ opened s = [0] /\ lib s = Some 0 /\
    gamedll s = Some 0.
Proof.
  intros b ops F. cbn [run step].
  assert (G : game_running (game_init init b)).
  { exists 0. repeat split; [left; reflexivity|left; reflexivity]. }
  destruct (game_run ops (game_init init b)) as (outs & s & R & G' & O); auto.
  { exact init_sized. }
  rewrite R. eexists _, s. split; [reflexivity|].
  destruct G' as (h & G1 & G2 & G3 & _).
  change (opened (game_init init b)) with [0] in O. rewrite O in G3.
  destruct G3 as [<-|[]]. auto.
Qed.
Print Assumptions C70_listener.
Example C70_listener_ex : exists s,
  run init [GameInit CSS; Query; GetCallbacks 1; Load (good CSS); Describe; Unload; Describe; Unload] =
  Some ([ONone; OQuery QForward; OCallbacks true; OLoad (Loaded CSS 1); ODescribe true; ONone; ODescribe true; ONone], s).
Proof. eexists. vm_compute. reflexivity. Qed.

(** Without a game library everything is defined up to Unload, and after it whatever does not call
    the core. *)
Theorem C70_defined : forall ops1 ops2, Forall no_game ops1 -> ~ In Unload ops1 ->
  (ops2 = [] \/ exists ops3, ops2 = Unload :: ops3 /\ Forall no_game ops3 /\ ~ In Unload ops3 /\
     ~ In Describe ops3 /\ Forall (fun o => ~ is_load o) ops3) ->
  run init (ops1 ++ ops2) <> None.
Proof.
  intros ops1 ops2 F NU C. rewrite run_app.
  destruct (defined_run1 ops1 init init_sized) as (o1 & s1 & R1 & S1 & C1); auto.
  { left. repeat split; reflexivity. }
  rewrite R1. destruct C as [->|(ops3 & -> & F3 & N1 & N2 & N3)]; [cbn [run]; discriminate|].
  cbn [run].
  assert (D : step s1 Unload <> None)
    by (destruct C1; [apply idle_defined|apply running_defined]; auto; exact I).
  destruct (step s1 Unload) as [[x s2]|] eqn:E; [|congruence].
  assert (C2 : idle s2 \/ ended s2).
  { destruct C1 as [C1|C1].
    - destruct (idle_step s1 Unload x s2 S1 C1 I E) as [(_ & Q)|(Q & _)]; [auto|].
      exfalso. cbn [step] in E. destruct (unload s1); [|discriminate]. injection E as <- <-. exact Q.
    - destruct (running_step s1 Unload x s2 C1 I E) as (_ & [(Q & _)|(_ & Q)]); [congruence|auto]. }
  destruct (defined_run2 ops3 s2 (step_sized _ _ _ _ S1 E) C2 F3 N1 N2 N3) as (o3 & s3 & R3).
  rewrite R3. discriminate.
Qed.
Print Assumptions C70_defined.
Example C70_defined_ex :
  run init ([GetCallbacks 2; Load (good Episode1); Describe] ++ Unload :: [GetCallbacks 2; Query]) <> None.
Proof. vm_compute. discriminate. Qed.

(** ... but vsp_bridge still points into the library which Unload closed: a second Unload, or a
    question for the description, calls into it; so does either of them once DLLShutdown has closed
    the library of the game side. *)
Theorem C70_dangling_refuted :
  run init [GetCallbacks 2; Load (good TF2); Unload] <> None /\
  run init [GetCallbacks 2; Load (good TF2); Unload; Describe] = None /\
  run init [GetCallbacks 2; Load (good TF2); Unload; Unload] = None /\
  run init [GameInit TF2; GetCallbacks 2; Load (good TF2); GameShutdown; Unload] = None.
Proof. split; [vm_compute; discriminate|]. split; [|split]; vm_compute; reflexivity. Qed.
Print Assumptions C70_dangling_refuted.

(** Once the listener is loaded beside the game library, a request for any other interface is
    answered with NULL for ever, though the core could answer it. *)
Theorem C70_query_refuted : forall b v ops, Forall no_game ops -> (b <> UNKNOWN)%type -> (0 <= v <= 2)%Z ->
  exists outs s h, run init (GameInit b :: GetCallbacks v :: Load (good b) :: ops) = Some (outs, s) /\
    gamedll s = Some h /\ In h (opened s) /\ query s = Some QNull /\
    exists s0, run init [GameInit b] = Some ([ONone], s0) /\ query s0 = Some QForward.
Proof.
  intros b v ops F NB V.
  assert (F' : Forall no_game (GetCallbacks v :: Load (good b) :: ops))
    by (constructor; [exact I|]; constructor; [exact I|exact F]).
  destruct (C70_listener b _ F') as (outs & s & R & O & L & G).
  exists outs, s, 0. split; [exact R|]. clear F'. split; [exact G|]. split; [rewrite O; left; reflexivity|].
  split.
  2:{ eexists. split; reflexivity. }
  assert (E : exists o1 s1, run init [GameInit b; GetCallbacks v; Load (good b)] = Some (o1, s1) /\ closed_state s1).
  { cbn [run step]. change (bridge (game_init init b)) with (@None nat). cbv iota.
    unfold get_callbacks. change (bridge (game_init init b)) with (@None nat). cbv iota zeta.
    rewrite Z.mod_small by lia.
    replace (2 <? v)%Z with false by (symmetry; apply Z.ltb_ge; lia). cbn [fst snd].
    destruct b; try congruence; (eexists _, _; split; [vm_compute; reflexivity|split; [discriminate|reflexivity]]). }
  destruct E as (o1 & s1 & E & C).
  change (GameInit b :: GetCallbacks v :: Load (good b) :: ops)
    with ([GameInit b; GetCallbacks v; Load (good b)] ++ ops) in R.
  rewrite run_app, E in R. destruct (run s1 ops) as [[o2 s2]|] eqn:E2; [|discriminate R].
  injection R as _ ->.
  destruct (closed_run _ _ _ _ C E2) as [[B _] _].
  unfold query. destruct (bridge s); [reflexivity|congruence].
Qed.
Print Assumptions C70_query_refuted.

(** The core takes the lowest version of the interface of the game between 3 and 50, if there is one;
    and of the interface for clients 003 before 004, although its own loop forgets 003 when 004 is
    missing (the provider asks again). *)
Theorem C70_server : forall has,
  match server_version has with
  | Some k => 3 <= k <= 50 /\ has k = true /\ forall j, 3 <= j < k -> has j = false
  | None => forall j, 3 <= j <= 50 -> has j = false
  end.
Proof.
  intros has. unfold server_version. pose proof (find_server_spec has 48 3) as H.
  destruct (find_server has 3 48) as [k|].
  - destruct H as (A & B & C). split; [lia|]. auto.
  - intros j J. apply H. lia.
Qed.
Print Assumptions C70_server.
Example C70_server_ex : server_version (fun k => (7 <=? k) && negb (k =? 8)) = Some 7.
Proof. reflexivity. Qed.

Theorem C70_clients : forall has,
  (forall k, gameclients_provider has = Some k -> has k = true /\ (k = 3 \/ k = 4)) /\
  (gameclients_provider has = None -> has 3 = false /\ has 4 = false).
Proof.
  intros has. unfold gameclients_provider. destruct (has 3) eqn:H3, (has 4) eqn:H4; split; intros; try discriminate; auto;
    match goal with H : Some _ = Some _ |- _ => injection H as <- end; auto.
Qed.
Print Assumptions C70_clients.
Example C70_clients_ex : gameclients_provider (fun k => k =? 4) = Some 4.
Proof. reflexivity. Qed.
Theorem C70_clients_loop_refuted : exists has, has 3 = true /\ gameclients_loop has 3 2 None = None.
Proof. exists (fun k => k =? 3). split; reflexivity. Qed.
Print Assumptions C70_clients_loop_refuted.
