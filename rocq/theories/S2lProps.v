(** C78: a Source 2 game behind the loader. *)
From Coq Require Import List Bool Arith Lia ZArith Ascii String.
From Verif Require Import StrModel ConsModel ConsProofs S2lModel S2lSpec S2lProofs.
Import ListNotations.
Local Open Scope list_scope.
Local Open Scope nat_scope.
Notation length := List.length.

(** ** Which request is which *)
Theorem C78_which : forall d i name,
  (classify d i name = KRefused <-> starts (w_ "Source2Server") name /\ d = false /\ i = false) /\
  (classify d i name = KConfig <-> starts (w_ "Source2ServerConfig") name /\ (d = true \/ i = true)) /\
  (classify d i name = KServer <->
     (exists num, name = w_ "Source2Server" ++ num /\ atoi num <> 0%Z) /\ (d = true \/ i = true)) /\
  (classify d i name = KSource1 <-> starts (w_ "ServerGameDLL") name).
Proof.
  intros d i name.
  assert (En : (exists num, name = w_ "Source2Server" ++ num /\ atoi num <> 0%Z) <->
               strncmp0 (w_ "Source2Server") name && negb (atoi (skipn 13 name) =? 0)%Z = true).
  { rewrite andb_true_iff, strncmp0_spec, negb_true_iff, Z.eqb_neq. split.
    - intros (num & -> & H). split; [exists num; reflexivity|exact H].
    - intros ((num & ->) & H). exists num. split; [reflexivity|exact H]. }
  assert (Ex : strncmp0 (w_ "Source2Server") name && negb (atoi (skipn 13 name) =? 0)%Z = true -> strncmp0 (w_ "Source2ServerConfig") name = false).
  { intros H. apply En in H. destruct H as (num & -> & H). apply server_not_config; exact H. }
  rewrite En. rewrite <- !strncmp0_spec.
  assert (U1 : strncmp0 (w_ "Source2Server") name = true -> strncmp0 (w_ "ServerGameDLL") name = false).
  { intros H. apply strncmp0_spec in H. destruct H as (r & ->). reflexivity. }
  assert (U3 : strncmp0 (w_ "Source2ServerConfig") name = true -> strncmp0 (w_ "Source2Server") name = true).
  { rewrite !strncmp0_spec. apply config_is_server. }
  unfold classify. clear En.
  destruct (strncmp0 (w_ "Source2Server") name), (strncmp0 (w_ "Source2ServerConfig") name), (strncmp0 (w_ "ServerGameDLL") name),
    (atoi (skipn 13 name) =? 0)%Z, d, i; cbn [andb negb] in *;
    try (specialize (U1 eq_refl); discriminate); try (specialize (U3 eq_refl); discriminate); try (specialize (Ex eq_refl); discriminate);
    clear; repeat split; intros; try discriminate; intuition discriminate.
Qed.
Print Assumptions C78_which.

(** ** What has happened at each point *)
Theorem C78_history : forall win L paths w0 n p s, reach win L paths w0 n p s -> phase_says win L paths n p s.
Proof. intros win L paths w0 n p s H. exact (proj1 (reach_inv win L paths w0 n p s H)). Qed.
Print Assumptions C78_history.

(** ** Nothing is undefined, except in the cases listed below *)
Theorem C78_safe : forall win L paths w0 n p s, reach win L paths w0 n p s ->
  match p with
  | Asking => forall v name, length (v_paths v) = paths -> starts (w_ "Source2ServerConfig") name ->
      exists s' r, CreateInterface win L s v name = Some (s', r) /\
        (r = true -> v_dedicated v = true \/ v_insecure v = true)
  | HaveC h => forall f e r, benign e -> (forall w, ts (e w) 3 = ts w 3) -> exists s', step win L s (OConnect f e r) = Some s'
  | Conn h f => forall v num, v_dedicated v = true \/ v_insecure v = true -> atoi num <> 0%Z -> v_qvi v = true ->
      exists s', CreateInterface win L s v (w_ "Source2Server" ++ num) = Some (s', true)
  | HaveS h f => forall o, o_index o = 1 -> benign_out o -> core_up o = true \/ o_result o = true ->
      together (a_conf L h) -> exists s', step win L s (OInit o) = Some s'
  | Ran h f o => o_result o = true -> forall eu eg, exists s', step win L s (ODisconnect eu eg) = Some s'
  | Down _ _ _ => True
  end /\
  (has_config p <> None -> exists s', step win L s OAllow = Some s') /\
  (forall v name, ~ starts (w_ "Source2Server") name -> ~ starts (w_ "ServerGameDLL") name ->
     exists s', step win L s (Request v name) = Some s').
Proof.
  intros win L paths w0 n p s H. destruct (reach_inv _ _ _ _ _ _ _ H) as [I A]. split; [|split].
  - destruct p as [|h|h f|h f|h f o|h f o].
    + intros v name Hv Hn. destruct (request_spec win L paths s v name (A eq_refl) Hv Hn) as (s' & r & E & K).
      exists s', r. split; [exact E|]. intros ->. unfold CreateInterface, GameDllRequest in E.
      destruct (A eq_refl) as (_ & _ & _ & (B & _) & _). rewrite B, (classify_config _ _ _ Hn) in E.
      destruct (v_dedicated v); [left; reflexivity|]. destruct (v_insecure v); [right; reflexivity|]. discriminate E.
    + intros f e r B1 B2. destruct (connect_step win L paths n h s f e r I B1 B2) as (s' & E & _). exists s'. exact E.
    + intros v num Hd Hn Hq. destruct (server_step win L paths n h s f v num I Hd Hn Hq) as (s' & E & _). exists s'. exact E.
    + intros o Hi Hb Hu Ht. destruct (init_step win L paths n h s f o I Hi Hb Hu) as (s' & E & _); [|exists s'; exact E].
      intros _. apply may_second; [exact Ht|]. apply (bn_page _ (others_benign o Hb)). cbn [wr]. apply I.
    + intros Hr eu eg. destruct (down_step win L paths n h s f o eu eg I Hr) as (s' & E & _). exists s'. exact E.
    + exact Logic.I.
  - intros Hc. destruct (has_config p) as [h|] eqn:Eh; [|contradiction].
    destruct (allow_step win L paths n p h s I Eh) as (s' & E & _). exists s'. exact E.
  - intros v name H1 H2. destruct (other_step win L paths n p s v name I A H1 H2) as (s' & E & _). exists s'. exact E.
Qed.
Print Assumptions C78_safe.

(** ** What is undefined *)
(** the game's Init fails and the core is not there *)
Theorem C78_failed_init_refuted : forall win L paths w0 n h f s o, reach win L paths w0 n (HaveS h f) s ->
  core_up o = false -> o_result o = false -> step win L s (OInit o) = None.
Proof.
  intros win L paths w0 n h f s o H Hc Hr. exact (init_crash win L paths n h s f o (proj1 (reach_inv _ _ _ _ _ _ _ H)) Hc Hr).
Qed.
Print Assumptions C78_failed_init_refuted.
(** the game does not know the version of the second interface *)
Theorem C78_null_interface_refuted : forall win L paths w0 n h f s v num, reach win L paths w0 n (Conn h f) s ->
  v_dedicated v = true \/ v_insecure v = true -> atoi num <> 0%Z -> v_qvi v = false ->
  CreateInterface win L s v (w_ "Source2Server" ++ num) = None.
Proof.
  intros win L paths w0 n h f s v num H Hd Hn Hq. exact (server_null win L paths n h s f v num (proj1 (reach_inv _ _ _ _ _ _ _ H)) Hd Hn Hq).
Qed.
Print Assumptions C78_null_interface_refuted.
(** the second interface is asked for first *)
Theorem C78_order_refuted : forall win L paths w0 s v num, reach win L paths w0 0 Asking s -> qvi s = None ->
  v_dedicated v = true \/ v_insecure v = true -> atoi num <> 0%Z ->
  CreateInterface win L s v (w_ "Source2Server" ++ num) = None.
Proof.
  intros win L paths w0 s v num H Hq Hd Hn. destruct (reach_inv _ _ _ _ _ _ _ H) as [(_ & _ & _ & (B & _) & _) _].
  unfold CreateInterface, GameDllRequest. rewrite B, classify_server by assumption. rewrite Hq. reflexivity.
Qed.
Print Assumptions C78_order_refuted.

(** ** Examples *)
Definition yes := ans true true true.
Definition no := ans true true false.
Definition v1 (al : list answer) : env := Env true false true al true.
Definition w_none : Z -> bool := fun _ => false.
Definition id_w (w : world) : world := w.
Definition good : outcome := out true true true true 1 id_w id_w id_w.
Lemma id_benign : benign id_w.
Proof. constructor; intros; auto. Qed.
Lemma good_benign : benign_out good.
Proof. repeat split; intros; auto. Qed.
Definition cfg := w_ "Source2ServerConfig001".
Definition srv := w_ "Source2Server" ++ w_ "001".
Lemma cfg_starts : starts (w_ "Source2ServerConfig") cfg.
Proof. exists (w_ "001"). reflexivity. Qed.

Lemma number : atoi (w_ "001") <> 0%Z.
Proof. vm_compute. discriminate. Qed.

(** two libraries, the second one is the game *)
Definition L_at (a : Z) : layout := Lay (fun h => 65536 + 8192 * Z.of_nat h + a)%Z (fun h => 131072 + 8192 * Z.of_nat h)%Z.
(** the engine comes as far as Init *)
Lemma path_to_init win a : a = 0%Z \/ a = 4088%Z -> exists s1 s2 s3,
  CreateInterface win (L_at a) (start 2 w_none) (v1 [no; yes]) cfg = Some (s1, true) /\
  reach win (L_at a) 2 w_none 0 (HaveC 1) s1 /\
  step win (L_at a) s1 (OConnect 77 id_w true) = Some s2 /\ reach win (L_at a) 2 w_none 0 (Conn 1 77) s2 /\
  CreateInterface win (L_at a) s2 (v1 [no; yes]) srv = Some (s3, true) /\ reach win (L_at a) 2 w_none 0 (HaveS 1 77) s3.
Proof.
  intros Ha.
  assert (A0 : asking 2 (start 2 w_none)).
  { apply (proj2 (reach_inv win (L_at a) 2 w_none 0 Asking _ (r_start win (L_at a) 2 w_none))). reflexivity. }
  destruct (request_spec win (L_at a) 2 (start 2 w_none) (v1 [no; yes]) cfg A0 eq_refl cfg_starts) as (s1 & r & E & K).
  assert (Er : match CreateInterface win (L_at a) (start 2 w_none) (v1 [no; yes]) cfg with Some (s, r) => r = true /\ config s = Some 1 | None => True end).
  { destruct win, Ha as [-> | ->]; vm_compute; split; reflexivity. }
  rewrite E in Er. destruct Er as [-> Ec].
  pose proof (r_yes win (L_at a) 2 w_none (start 2 w_none) (v1 [no; yes]) cfg s1 1 (r_start win (L_at a) 2 w_none) eq_refl cfg_starts E Ec) as R1.
  destruct (connect_step win (L_at a) 2 0 1 s1 77 id_w true (proj1 (reach_inv _ _ _ _ _ _ _ R1)) id_benign (fun w => eq_refl)) as (s2 & E2 & _).
  pose proof (r_connect win (L_at a) 2 w_none 0 s1 1 77 id_w true s2 R1 id_benign (fun w => eq_refl) E2) as R2.
  destruct (server_step win (L_at a) 2 0 1 s2 77 (v1 [no; yes]) (w_ "001") (proj1 (reach_inv _ _ _ _ _ _ _ R2)) (or_introl eq_refl) number eq_refl) as (s3 & E3 & _).
  pose proof (r_server win (L_at a) 2 w_none 0 s2 1 77 (v1 [no; yes]) (w_ "001") s3 true R2 (or_introl eq_refl) number E3) as R3.
  exists s1, s2, s3. split; [exact E|]. split; [exact R1|]. split; [exact E2|]. split; [exact R2|]. split; [exact E3|exact R3].
Qed.

(** the whole life, with the core *)
Example C78_life : forall win, exists s3 s4 s5,
  reach win (L_at 0) 2 w_none 0 (HaveS 1 77) s3 /\ together (a_conf (L_at 0) 1) /\
  step win (L_at 0) s3 (OInit good) = Some s4 /\ reach win (L_at 0) 2 w_none 0 (Ran 1 77 good) s4 /\
  step win (L_at 0) s4 (ODisconnect id_w id_w) = Some s5 /\ reach win (L_at 0) 2 w_none 0 (Down 1 77 good) s5.
Proof.
  intros win. destruct (path_to_init win 0 (or_introl eq_refl)) as (s1 & s2 & s3 & _ & _ & _ & _ & _ & R3).
  assert (T : together (a_conf (L_at 0) 1)) by (vm_compute; reflexivity).
  destruct (proj1 (C78_safe _ _ _ _ _ _ _ R3) good eq_refl good_benign (or_introl eq_refl) T) as (s4 & E4).
  pose proof (r_init win (L_at 0) 2 w_none 0 s3 1 77 good s4 R3 eq_refl good_benign E4) as R4.
  destruct (proj1 (C78_safe _ _ _ _ _ _ _ R4) eq_refl id_w id_w) as (s5 & E5).
  exists s3, s4, s5. repeat split; try assumption.
  exact (r_down win (L_at 0) 2 w_none 0 s4 1 77 good id_w id_w s5 R4 eq_refl E5).
Qed.
Example C78_asking : reach true (L_at 0) 2 w_none 0 Asking (start 2 w_none) /\ qvi (start 2 w_none) = None.
Proof. split; [constructor|reflexivity]. Qed.
(** what the game and the core saw *)
Example C78_seen : forall n s, reach false (L_at 0) 2 w_none n (Down 1 77 good) s ->
  exists a, hookable 1 1 a /\ life (trace s) =
    [CallConnect (Conf 1 0) 77; CorePre (Some 77%Z); CallInit (Serv 1 3); CorePost; CoreUnload; CallDisconnect a].
Proof. intros n s H. destruct (C78_history _ _ _ _ _ _ _ H) as (_ & _ & _ & _ & a & H1 & H2). exists a. split; [exact H1|exact H2]. Qed.

(** Linux: everything goes well, but the game's table begins in the last eight bytes of a
    page, and the loader writes the entry of Disconnect to a page that is protected. *)
Theorem C78_protected_refuted : exists s,
  reach false (L_at 4088) 2 w_none 0 (HaveS 1 77) s /\ step false (L_at 4088) s (OInit good) = None.
Proof.
  destruct (path_to_init false 4088 (or_intror eq_refl)) as (s1 & s2 & s3 & E1 & _ & E2 & _ & E3 & R3).
  exists s3. split; [exact R3|].
  assert (X : match CreateInterface false (L_at 4088) (start 2 w_none) (v1 [no; yes]) cfg with
              | Some (a, _) => match step false (L_at 4088) a (OConnect 77 id_w true) with
                               | Some b => match CreateInterface false (L_at 4088) b (v1 [no; yes]) srv with
                                           | Some (c, _) => step false (L_at 4088) c (OInit good) = None
                                           | None => True end
                               | None => True end
              | None => True end) by (vm_compute; reflexivity).
  rewrite E1, E2, E3 in X. exact X.
Qed.
Print Assumptions C78_protected_refuted.

(** The engine asks for an interface twice: the loader takes its own function for the
    original one and calls itself for ever. *)
Theorem C78_second_request_refuted : forall win f e r, exists s1 s2,
  CreateInterface win (L_at 0) (start 1 w_none) (v1 [yes]) cfg = Some (s1, true) /\
  CreateInterface win (L_at 0) s1 (v1 [yes]) cfg = Some (s2, true) /\
  step win (L_at 0) s2 (OConnect f e r) = None.
Proof.
  intros win f e r.
  assert (X : match CreateInterface win (L_at 0) (start 1 w_none) (v1 [yes]) cfg with
              | Some (a, true) => match CreateInterface win (L_at 0) a (v1 [yes]) cfg with
                               | Some (b, true) => config b = Some 0 /\ opened b = [0; 0] /\ ct b 0 0 = TConnect /\ o_connect b = TConnect
                               | _ => False end
              | _ => False end).
  { destruct win; vm_compute; repeat split. }
  destruct (CreateInterface win (L_at 0) (start 1 w_none) (v1 [yes]) cfg) as [[a [|]]|]; try contradiction.
  destruct (CreateInterface win (L_at 0) a (v1 [yes]) cfg) as [[b [|]]|] eqn:E; try contradiction.
  exists a, b. split; [reflexivity|]. split; [exact E|]. destruct X as (X1 & X2 & X3 & X4).
  unfold step. rewrite X1. unfold is_open. rewrite X2. cbn [existsb Nat.eqb orb negb]. rewrite X3. unfold Connect. fld. rewrite X4. reflexivity.
Qed.
Print Assumptions C78_second_request_refuted.

(** The entry that the core names is the one that is replaced, and the one that was
    there is kept: for every index. *)
Theorem C78_index : forall L s index s', PatchDllShutdown L s index = Some s' ->
  exists h, config s = Some h /\ o_shutdown s' = ct s h index /\ ct s' h index = TDisconnect /\
    (forall i, i <> index -> ct s' h i = ct s h i) /\ (forall k i, k <> h -> ct s' k i = ct s k i) /\ st_ s' = st_ s.
Proof.
  intros L s index s' E. unfold PatchDllShutdown, write_conf in E. destruct (config s) as [h|]; [|discriminate].
  destruct (is_open _ h && may_write _ _); [|discriminate]. injection E as <-. exists h. split; [reflexivity|]. split; [reflexivity|].
  cbn [set_ct set_oshut ct st_]. unfold upd, set_slot. rewrite Nat.eqb_refl. split; [rewrite Nat.eqb_refl; reflexivity|].
  split; [intros i N; rewrite (proj2 (Nat.eqb_neq i index) N); reflexivity|]. split; [intros k i N; rewrite (proj2 (Nat.eqb_neq k h) N); reflexivity|reflexivity].
Qed.
Print Assumptions C78_index.
Example C78_index_example : exists s', PatchDllShutdown (L_at 0) (set_wrt (set_config (load (start 1 w_none) 0) (Some 0)) (fun _ => true)) 5 = Some s' /\ o_shutdown s' = Conf 0 5.
Proof. eexists. split; vm_compute; reflexivity. Qed.
