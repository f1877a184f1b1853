(** C73, C74: what the providers announce to the core, and when the start of a provider is defined. *)
From Coq Require Import List Bool Arith String Lia.
From Verif Require Import ProvModel ProvSpec ProvProofs.
Import ListNotations.
Local Open Scope nat_scope.

(** C73: whatever a sensible Source 2 engine does after the start, exactly the expected announcements are
    made, in order: registering a "game" factory is the start of the game, loop modes made by such a factory
    are announced once for each start and stop, other modes never, a client's "meta" goes to Metamod only,
    any other command to the game only. *)
Theorem C73_announcements : forall e srv l e' a,
  complete2 e -> lawful_run (negb (f_clients e =? 0)) eng0 l e' a ->
  exists s s', DLLInit_Pre2 e (start srv) = Some s /\ run2 l s = Some s' /\ outs s' = a.
Proof.
  intros e srv l e' a C L. destruct (init2_inv e srv C) as (s & E & I & O).
  destruct (run_lawful _ _ _ _ _ L s I) as (s' & R & _ & O'). exists s, s'. rewrite O' , O. auto.
Qed.
Print Assumptions C73_announcements.

(** When every game factory has been unregistered, the shutdown leaves no hook at all. *)
Theorem C73_balance : forall e srv l e' a,
  complete2 e -> lawful_run (negb (f_clients e =? 0)) eng0 l e' a -> (forall f, reg e' f = false) ->
  exists s s' s'', DLLInit_Pre2 e (start srv) = Some s /\ run2 l s = Some s' /\ DLLShutdown2 s' = Some s'' /\
    hooks s'' = [].
Proof.
  intros e srv l e' a C L R. destruct (init2_inv e srv C) as (s & E & I & O).
  destruct (run_lawful _ _ _ _ _ L s I) as (s' & X & I' & _). destruct (shutdown2_count s') as (s'' & D & K).
  exists s, s', s''. split; [exact E|]. split; [exact X|]. split; [exact D|].
  destruct I' as [im iu ic icr ide iin ist it iz io]. apply count_zero. intros [m o]. rewrite K.
  assert (T : forall x, match live e' x with Some (_, true) => 1 | _ => 0 end = 0).
  { intros x. destruct (live e' x) as [[f [|]]|] eqn:Q; try reflexivity. apply it in Q. rewrite R in Q. discriminate Q. }
  destruct (Nat.eq_dec (count (m, o) (hooks s')) 0) as [Z|Z]; [rewrite Z; destruct (_ || _); reflexivity|].
  apply count_pos in Z. apply io in Z. unfold expected_hook in Z. cbn [fst snd] in Z.
  rewrite !hook_eqb_pair. destruct m; try contradiction; cbn [meth_eq_dec meth_rec meth_rect andb orb]; rewrite ?andb_false_r.
  - subst o. rewrite Nat.eqb_refl, andb_true_r. destruct (clients s' =? 0) eqn:W; cbn [negb]; [|reflexivity].
    rewrite ic, iz. reflexivity.
  - subst o. rewrite Nat.eqb_refl. reflexivity.
  - subst o. rewrite Nat.eqb_refl. reflexivity.
  - rewrite icr, R. reflexivity.
  - rewrite ide, R. reflexivity.
  - rewrite iin. apply T.
  - rewrite ist. apply T.
Qed.
Print Assumptions C73_balance.

(** Source 1: every call of the four methods is announced exactly once. *)
Theorem C73_source1 : forall e srv l, complete1 e -> srv <> 0 ->
  exists s s', DLLInit_Pre1 e (start srv) = Some s /\ run1 l s = Some s' /\
    outs s' = map (expected1 (negb (f_clients e =? 0))) l.
Proof.
  intros e srv l C N. destruct (init1_inv e srv C N) as (s & E & I & O).
  destruct (run1_inv _ l s I) as (s' & R & _ & O'). exists s, s'. rewrite O', O. auto.
Qed.
Print Assumptions C73_source1.

Definition all : found := Found true true true 3 4.
(** a game with two modes, one of another factory, then everything taken down *)
Definition game : list op2 :=
  [Register "menu" 7; Register "game" 5; Create 5 10 10; Create 7 11 11; Init 10; Init 11; Command "meta"; Command "say";
   Stop 11; Stop 10; Destroy 7 11; Destroy 5 10; Unregister "game" 5].
Definition game_anns : list ann := [OnGameInit; OnLevelInit; OnClientMeta; Passed "say"; OnLevelShutdown].
Example C73_game : exists e', lawful_run true eng0 game e' game_anns /\ (forall f, reg e' f = false).
Proof.
  eexists. split.
  - unfold game, game_anns.
    change [OnGameInit; OnLevelInit; OnClientMeta; Passed "say"; OnLevelShutdown]
      with ([] ++ [OnGameInit] ++ [] ++ [] ++ [OnLevelInit] ++ [] ++ [OnClientMeta] ++ [Passed "say"] ++ [] ++ [OnLevelShutdown] ++ [] ++ [] ++ [] ++ []).
    eapply lr_cons; [apply l_register_other; discriminate|].
    eapply lr_cons; [apply l_register; [discriminate|reflexivity]|].
    eapply lr_cons; [apply l_create; [discriminate|reflexivity]|].
    eapply lr_cons; [apply l_create; [discriminate|reflexivity]|].
    eapply lr_cons; [refine (l_init _ _ 10 5 true _); reflexivity|].
    eapply lr_cons; [refine (l_init _ _ 11 7 false _); reflexivity|].
    eapply lr_cons; [apply l_command|].
    eapply lr_cons; [apply l_command|].
    eapply lr_cons; [refine (l_stop _ _ 11 7 false _); reflexivity|].
    eapply lr_cons; [refine (l_stop _ _ 10 5 true _); reflexivity|].
    eapply lr_cons; [eapply l_destroy; reflexivity|].
    eapply lr_cons; [eapply l_destroy; reflexivity|].
    eapply lr_cons; [apply l_unregister|apply lr_nil].
    intros m. unfold upd. cbn [live reg eng0]. destruct (m =? 10); [discriminate|]. destruct (m =? 11); discriminate.
  - intros f. cbn [reg]. unfold upd. cbn [reg eng0]. destruct (f =? 5); reflexivity.
Qed.
Example C73_game_run : exists s s' s'', DLLInit_Pre2 all (start 9) = Some s /\ run2 game s = Some s' /\ outs s' = game_anns /\
  DLLShutdown2 s' = Some s'' /\ hooks s'' = [].
Proof. do 3 eexists. repeat (split; [vm_compute; reflexivity|]). vm_compute. reflexivity. Qed.
Example C73_source1_run : exists s s', DLLInit_Pre1 all (start 9) = Some s /\
  run1 [GGameInit; GLevelInit; GCommand "meta"; GCommand "say"; GLevelShutdown] s = Some s' /\
  outs s' = [OnGameInit; OnLevelInit; OnClientMeta; Passed "say"; OnLevelShutdown].
Proof. do 2 eexists. repeat (split; [vm_compute; reflexivity|]). vm_compute. reflexivity. Qed.

(** Refuted without the condition on Unregister: if the factory is unregistered while one of its modes
    lives, its hooks stay on the address of the mode, and a later mode of another (unrelated) factory at that
    address is announced although it is no game mode; a game mode there is announced twice. *)
Theorem C73_unregister_refuted :
  (exists s s', DLLInit_Pre2 all (start 9) = Some s /\
     run2 [Register "game" 5; Create 5 10 10; Unregister "game" 5; Destroy 5 10; Create 7 10 10; Init 10] s = Some s' /\
     outs s' = [OnGameInit; OnLevelInit]) /\
  (exists s s', DLLInit_Pre2 all (start 9) = Some s /\
     run2 [Register "game" 5; Create 5 10 10; Unregister "game" 5; Destroy 5 10; Register "game" 5; Create 5 10 10; Init 10] s = Some s' /\
     outs s' = [OnGameInit; OnGameInit; OnLevelInit; OnLevelInit]).
Proof. split; do 2 eexists; repeat (split; [vm_compute; reflexivity|]); vm_compute; reflexivity. Qed.
Print Assumptions C73_unregister_refuted.

(** Refuted when a plugin overrides the result of CreateLoopMode: Metamod hooks the mode that the original
    returned, and the mode the engine runs is never announced. *)
Theorem C73_override_refuted : exists s s', DLLInit_Pre2 all (start 9) = Some s /\
  run2 [Register "game" 5; Create 5 10 12; Init 12; Stop 12; Destroy 5 12] s = Some s' /\
  outs s' = [OnGameInit] /\ count (LoopInit, 10) (hooks s') = 1.
Proof. do 2 eexists. repeat (split; [vm_compute; reflexivity|]). vm_compute. reflexivity. Qed.
Print Assumptions C73_override_refuted.

(** Refuted when CreateLoopMode returns null (it failed, or a plugin superceded it): undefined. *)
Theorem C73_null_refuted : exists s, DLLInit_Pre2 all (start 9) = Some s /\
  forall seen, run2 [Register "game" 5; Create 5 0 seen] s = None.
Proof. eexists. split; [vm_compute; reflexivity|]. intros seen. vm_compute. reflexivity. Qed.
Print Assumptions C73_null_refuted.

(** C74: the start is defined exactly when the engine is found and, if the console variables are found
    too, the file system and the service manager are. *)
Theorem C74_defined_source2 : forall e srv, DLLInit_Pre2 e (start srv) <> None <->
  f_engine e = true /\ (f_icvar e = true -> f_fs e = true /\ f_mgr e <> 0).
Proof. exact init2_defined. Qed.
Print Assumptions C74_defined_source2.

Theorem C74_defined_source1 : forall e srv, DLLInit_Pre1 e (start srv) <> None <->
  f_engine e = true /\ (f_icvar e = true -> srv <> 0).
Proof. exact init1_defined. Qed.
Print Assumptions C74_defined_source1.

(** With everything found the start succeeds and nothing has been announced (both engines). *)
Theorem C74_complete : forall e srv,
  (complete2 e -> exists s, DLLInit_Pre2 e (start srv) = Some s /\ outs s = []) /\
  (complete1 e -> srv <> 0 -> exists s, DLLInit_Pre1 e (start srv) = Some s /\ outs s = []).
Proof.
  intros e srv. split.
  - intros C. destruct (init2_inv e srv C) as (s & E & _ & O). exists s. auto.
  - intros C N. destruct (init1_inv e srv C N) as (s & E & _ & O). exists s. auto.
Qed.
Print Assumptions C74_complete.
Example C74_all : complete2 all /\ complete1 all.
Proof. repeat split; discriminate. Qed.

(** Refuted: "a missing interface is reported and does no harm".  Without the engine ("Metamod cannot load")
    the start goes on to use it; without a file system (".vdf files will not be parsed") Source 2 uses it. *)
Theorem C74_missing_refuted : forall srv icvar fs mgr cls,
  DLLInit_Pre2 (Found false icvar fs mgr cls) (start srv) = None /\
  DLLInit_Pre1 (Found false icvar fs mgr cls) (start srv) = None /\
  DLLInit_Pre2 (Found true true false mgr cls) (start srv) = None.
Proof. repeat split. Qed.
Print Assumptions C74_missing_refuted.

(** Refuted for Source 1: "the shutdown of the provider removes its hooks" - the one on ClientCommand stays
    (until SourceHook itself is shut down, just after). *)
Theorem C74_client_hook_refuted : forall e srv, complete1 e -> srv <> 0 -> f_clients e <> 0 ->
  exists s s', DLLInit_Pre1 e (start srv) = Some s /\ DLLShutdown1 s = Some s' /\ hooks s' = [(ClientCommand, f_clients e)].
Proof.
  intros e srv (E & C) M K. apply Nat.eqb_neq in M, K. unfold DLLInit_Pre1, DLLInit1, start, GetGamePath, add.
  rewrite E, C. cbn [negb hooks svcmgr clients server outs]. rewrite K. cbn [bind server set_hooks hooks]. rewrite M.
  cbn [bind server set_hooks hooks]. rewrite ?M. cbn [bind server set_hooks hooks]. rewrite ?M. cbn [bind].
  do 2 eexists. split; [reflexivity|]. split; [reflexivity|].
  cbn [hooks set_hooks server app filter]. rewrite !hook_eqb_pair. cbn [meth_eq_dec meth_rec meth_rect andb negb].
  rewrite ?Nat.eqb_refl. cbn [negb filter].
  repeat (rewrite ?hook_eqb_pair, ?Nat.eqb_refl; cbn [meth_eq_dec meth_rec meth_rect andb negb filter]). reflexivity.
Qed.
Print Assumptions C74_client_hook_refuted.
