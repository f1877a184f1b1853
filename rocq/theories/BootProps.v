(** C71: plugins are loaded once at the start, again at the end of every level but the first, and the
    listener is asked for once. *)
From Coq Require Import List ZArith Bool Lia.
From Verif Require Import BootModel BootSpec BootProofs BootVsp.
Import ListNotations.
Local Open Scope nat_scope.
Notation length := List.length.

Definition game_ops : list op :=
  [DLLInit_Pre true; DLLInit_Post false; OnGameInit false false; OnLevelInit; VspLoad false 7 2;
   OnLevelShutdown false false false; OnLevelInit; OnLevelShutdown false false true].
Definition game_ops_ok : as_gamedll game_ops.
Proof. exists true. eexists. split; [reflexivity|]. repeat constructor. Qed.
Definition vsp_run : list op :=
  [VspLoad false 7 2; Enable; OnGameInit true false; OnGameInit false false; OnLevelShutdown false false false;
   OnLevelShutdown true true true].
Definition vsp_run_ok : as_vsp vsp_run.
Proof. exists false, 7, 2%Z. eexists. split; [reflexivity|]. repeat constructor. Qed.

(** Loaded as game library: the initial loads happen exactly once, before anything else that loads
    plugins and before AllPluginsLoaded, which is called at most once; every end of a level but the
    first loads plugins again. *)
Theorem C71_gamedll : forall l, as_gamedll l ->
  let t := trace (run l) in
  count is_initial t = 1 /\ count is_all t <= 1 /\ count is_refresh t = count is_end t - 1 /\
  before is_initial is_refresh t /\ before is_initial is_all t.
Proof.
  intros l A. destruct (run_g l A) as [a b c d e f g h i j k m n o p q r]. cbv zeta. auto 10.
Qed.
Print Assumptions C71_gamedll.
Example C71_gamedll_ex : as_gamedll game_ops /\
  trace (run game_ops) =
  [Initial; Request; AllLoaded; Command; GameStarted; LevelBegin; Listening 7 2; LevelEnd; LevelBegin;
   Refresh; Request; LevelEnd].
Proof. split; [exact game_ops_ok|reflexivity]. Qed.

(** ... and DLLInit_Post has made the call of AllPluginsLoaded. *)
Theorem C71_gamedll_all : forall l a l', as_gamedll (l ++ DLLInit_Post a :: l') -> l <> [] ->
  count is_all (trace (run (l ++ DLLInit_Post a :: l'))) = 1.
Proof.
  intros l a l' A NE. pose proof (run_g _ A) as G.
  assert (S : all (run (l ++ DLLInit_Post a :: l')) = true).
  { unfold run. rewrite fold_left_app. cbn [fold_left]. apply fold_all. apply set_all_all. }
  pose proof (g_all1 _ G) as L1. pose proof (g_all _ G) as L2. rewrite S, exists_count in L2.
  destruct (count is_all (trace (run (l ++ DLLInit_Post a :: l')))) as [|k]; [discriminate L2|].
  lia.
Qed.
Print Assumptions C71_gamedll_all.
Example C71_gamedll_all_ex : as_gamedll ([DLLInit_Pre true] ++ DLLInit_Post false :: [Enable]) /\ [DLLInit_Pre true] <> [].
Proof. split; [|discriminate]. exists true. eexists. split; [reflexivity|]. repeat constructor. Qed.

(** The command that loads the listener is sent at most once, never without a request, and not before
    the first OnGameInit; if both have come it has been sent, unless the listener was there. *)
Theorem C71_command : forall l, as_gamedll l ->
  let t := trace (run l) in
  count is_command t <= 1 /\ before is_request is_command t /\
  (has is_command t -> has is_started t) /\
  (has is_request t -> has is_started t -> has is_command t \/ has is_listening t).
Proof.
  intros l A. destruct (run_g l A) as [a b c d e f g h i j k m n o p q r]. cbv zeta. unfold has.
  split; [exact g|]. split; [exact j|]. split.
  - intros C. destruct (h C) as [_ H]. rewrite <- e. exact H.
  - intros R S. rewrite <- d in R. rewrite <- e in S. destruct (i R S) as [H|H]; [auto|].
    right. rewrite <- b. exact H.
Qed.
Print Assumptions C71_command.
Example C71_command_ex : as_gamedll [DLLInit_Pre false; OnGameInit false false; Enable; Enable] /\
  trace (run [DLLInit_Pre false; OnGameInit false false; Enable; Enable]) =
  [Initial; GameStarted; Request; Command; Request].
Proof. split; [|reflexivity]. exists false. eexists. split; [reflexivity|]. repeat constructor. Qed.

(** It may be sent although the listener is there: a plugin that asks for it when it is told of it
    is taken at its word, since the flag is set after the announcement. *)
Theorem C71_command_late_refuted : exists l t1 t2, as_gamedll l /\
  trace (run l) = t1 ++ Command :: t2 /\ has is_listening t1.
Proof.
  exists [DLLInit_Pre false; OnGameInit false false; VspLoad true 7 2],
    [Initial; GameStarted; Listening 7 2; Request], [].
  split; [|split; reflexivity]. exists false. eexists. split; [reflexivity|]. repeat constructor.
Qed.
Print Assumptions C71_command_late_refuted.

(** Loaded as server plugin: the plugins are loaded, once, by whichever of OnGameInit and
    OnLevelShutdown comes first, and AllPluginsLoaded follows; the listeners are told of the server
    plugin before there are any; no command is sent; every end of a level but the first loads plugins
    again. *)
Theorem C71_vsp : forall a cb v l, Forall vsp_ops l ->
  let t := trace (run (VspLoad a cb v :: l)) in
  let started := existsb (fun o => match o with OnGameInit _ _ | OnLevelShutdown _ _ _ => true | _ => false end) l in
  count is_initial t = (if started then 1 else 0) /\
  count is_all t = (if started then 1 else 0) /\
  count is_refresh t = count is_end t - 1 /\
  count is_end t = length (filter (fun o => match o with OnLevelShutdown _ _ _ => true | _ => false end) l) /\
  count is_command t = 0 /\
  before is_initial is_refresh t /\ before is_initial is_all t /\
  (exists t', t = Listening cb v :: t' /\ count is_listening t' = 0).
Proof.
  intros al cb v l F. destruct (run_v al cb v l F) as [a b c vn d f g h i j k m n o p q]. cbv zeta.
  split; [exact f|]. split; [exact h|]. split; [rewrite k; exact n|]. split; [exact k|].
  repeat (split; [assumption|]). exact j.
Qed.
Print Assumptions C71_vsp.
Example C71_vsp_ex : as_vsp vsp_run /\
  trace (run vsp_run) =
  [Listening 7 2; Request; Initial; Request; AllLoaded; GameStarted; LevelEnd; Refresh; Request; LevelEnd].
Proof. split; [exact vsp_run_ok|reflexivity]. Qed.
Example C71_vsp_ex2 :
  trace (run [VspLoad false 7 2; OnLevelShutdown false true true; OnLevelShutdown false false false; OnGameInit false false]) =
  [Listening 7 2; Initial; AllLoaded; Request; LevelEnd; Refresh; LevelEnd; GameStarted].
Proof. reflexivity. Qed.

(** GetVSPInfo gives the callbacks and version last announced, in both modes. *)
Theorem C71_info : forall l, as_gamedll l \/ as_vsp l ->
  GetVSPInfo (run l) = announced (trace (run l)) None 0%Z.
Proof.
  intros l [A|(al & cb & v & l' & -> & F)].
  - apply (g_info _ (run_g l A)).
  - apply (v_info _ _ _ _ _ (run_v al cb v l' F)).
Qed.
Print Assumptions C71_info.
Example C71_info_ex : GetVSPInfo (run game_ops) = (Some 7, 2%Z).
Proof. reflexivity. Qed.
