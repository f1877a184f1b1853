(** RemoveHookByID and RevertAndRemoveVfnPtr. *)
From Coq Require Import List Bool Arith ZArith Lia Sorted Permutation.
From Verif Require Import ProtoModel ShModel ShLists ShInv ShMan ShHooks ShAdd.
Import ListNotations.
Local Open Scope nat_scope.

(** ** Delegates *)
Record delegs_upd (h h' : hs) : Prop := {
  du_pfs : h_pfs h' = h_pfs h; du_mshi : h_mshi h' = h_mshi h; du_mans : h_mans h' = h_mans h;
  du_vfns : h_vfns h' = h_vfns h; du_ids : h_ids h' = h_ids h; du_mem : h_mem h' = h_mem h;
  du_vt : h_vt h' = h_vt h; du_thunks : h_thunks h' = h_thunks h; du_nxt : h_nxt h' = h_nxt h }.

Lemma delegs_upd_refl : forall h, delegs_upd h h.
Proof. intros h. constructor; reflexivity. Qed.
Lemma delegs_upd_trans : forall a b c, delegs_upd a b -> delegs_upd b c -> delegs_upd a c.
Proof. intros a b c [] []. constructor; congruence. Qed.

Lemma delete_deleg_spec : forall h n, In n (h_delegs h) -> NoDup (h_delegs h) ->
  exists h', delete_deleg h n = Some h' /\ delegs_upd h h' /\ mstep h h' /\ NoDup (h_delegs h') /\
    h_delegs h' = del_first (Nat.eqb n) (h_delegs h) /\ h_tr h' = ODelete n :: h_tr h /\
    (forall x, In x (h_delegs h') <-> In x (h_delegs h) /\ x <> n).
Proof.
  intros h n Hn Hd. unfold delete_deleg. apply memb_in in Hn as Hm. rewrite Hm.
  eexists. split; [reflexivity|]. set (h' := emit _ _).
  split; [constructor; reflexivity|]. split.
  - constructor.
    + apply WS_same; reflexivity.
    + apply (WR_same h h'); [reflexivity|]. exists [ODelete n]. split; [reflexivity|]. intros o. split; reflexivity.
    + intros [D1 D2]. unfold WD. cbn [h_tr h_delegs emit set_tr set_delegs deleted h' app h_nxt]. split.
      * rewrite nodup_app in D1. destruct D1 as (D3 & D4 & D5).
        constructor.
        { rewrite in_app_iff, in_del_nat by exact Hd. intros [C|[_ C]]; [|congruence]. apply (D5 n C Hn). }
        apply nodup_app. split; [exact D3|]. split; [apply nodup_del_first_id; exact D4|].
        intros x X1 X2. apply in_del_first_weak in X2. apply (D5 x X1 X2).
      * intros x [<-|Hx]; [apply D2; apply in_app_iff; auto|]. apply in_app_iff in Hx. apply D2. apply in_app_iff.
        destruct Hx as [Hx|Hx]; auto. apply in_del_first_weak in Hx. auto.
    + exists [ODelete n]. split; [reflexivity|]. repeat constructor.
  - split; [apply nodup_del_first_id; exact Hd|]. split; [reflexivity|]. split; [reflexivity|].
    intros x. apply in_del_nat. exact Hd.
Qed.

Lemma delete_delegs_spec : forall l h, NoDup (map hk_nid l) -> (forall k, In k l -> In (hk_nid k) (h_delegs h)) ->
  NoDup (h_delegs h) ->
  exists h', delete_delegs h l = Some h' /\ delegs_upd h h' /\ mstep h h' /\ NoDup (h_delegs h') /\
    (forall x, In x (h_delegs h') <-> In x (h_delegs h) /\ ~ In x (map hk_nid l)).
Proof.
  induction l as [|k l IH]; intros h Hn Hi Hd.
  - exists h. cbn [delete_delegs map In]. split; [reflexivity|]. split; [apply delegs_upd_refl|]. split; [apply mstep_refl|].
    split; [exact Hd|]. tauto.
  - cbn [map] in Hn. inversion Hn as [|? ? Hn1 Hn2]; subst.
    destruct (delete_deleg_spec h (hk_nid k) (Hi k (or_introl eq_refl)) Hd) as (h1 & E1 & U1 & S1 & D1 & _ & _ & X1).
    destruct (IH h1 Hn2) as (h2 & E2 & U2 & S2 & D2 & X2); [|exact D1|].
    + intros x Hx. apply X1. split; [apply Hi; cbn; auto|]. intros C. apply Hn1. rewrite <- C. apply in_map. exact Hx.
    + exists h2. cbn [delete_delegs]. rewrite E1. split; [exact E2|]. split; [eapply delegs_upd_trans; eauto|].
      split; [eapply mstep_trans; eauto|]. split; [exact D2|]. intros x. rewrite X2, X1. cbn [map In]. intuition.
Qed.

Definition iface_hooks (i : iface) : list hook := if_pre i ++ if_post i.
Definition all_hooks (l : list iface) : list hook := flat_map iface_hooks l.

Lemma destroy_ifaces_flat : forall l h, destroy_ifaces h l = delete_delegs h (all_hooks l).
Proof.
  assert (G : forall l1 l2 h, delete_delegs h (l1 ++ l2) = match delete_delegs h l1 with None => None | Some h' => delete_delegs h' l2 end).
  { induction l1 as [|a l1 IH]; intros l2 h; cbn [delete_delegs app]; [reflexivity|].
    destruct (delete_deleg h (hk_nid a)); [apply IH|reflexivity]. }
  induction l as [|i l IH]; intros h; [reflexivity|]. cbn [destroy_ifaces all_hooks flat_map].
  fold (iface_hooks i). rewrite (G (iface_hooks i)).
  destruct (delete_delegs h (iface_hooks i)); [apply IH|reflexivity].
Qed.

Lemma in_iface_hooks : forall i k, In k (iface_hooks i) <-> exists p, In k (hooks_of p i).
Proof.
  intros i k. unfold iface_hooks. rewrite in_app_iff. split.
  - intros [H|H]; [exists false|exists true]; exact H.
  - intros ([|] & H); auto.
Qed.
Lemma in_all_hooks : forall l k, In k (all_hooks l) <-> exists i p, In i l /\ In k (hooks_of p i).
Proof.
  intros l k. unfold all_hooks. rewrite in_flat_map. split.
  - intros (i & H1 & H2). apply in_iface_hooks in H2. destruct H2 as (p & H2). exists i, p. auto.
  - intros (i & p & H1 & H2). exists i. split; auto. apply in_iface_hooks. exists p. auto.
Qed.

(** the list nodes of one vfnptr are pairwise different *)
Lemma all_hooks_nodup : forall h v, WH h -> In v (h_vfns h) -> NoDup (map hk_nid (all_hooks (vf_ifaces v))).
Proof.
  intros h v W Hv.
  assert (Un : forall i1 p1 k1 i2 p2 k2, In i1 (vf_ifaces v) -> In k1 (hooks_of p1 i1) -> In i2 (vf_ifaces v) -> In k2 (hooks_of p2 i2) ->
               hk_nid k1 = hk_nid k2 -> i1 = i2 /\ p1 = p2).
  { intros i1 p1 k1 i2 p2 k2 A1 B1 A2 B2 E.
    destruct (hook_at_nid_eq h (vf_ptr v) (if_ptr i1) p1 k1 (vf_ptr v) (if_ptr i2) p2 k2 W) as (_ & E2 & E3 & _); auto.
    - exists v, i1. auto.
    - exists v, i2. auto.
    - split; auto. apply (iface_unique h v); auto. }
  assert (G : forall l, (forall j, In j l -> In j (vf_ifaces v)) -> NoDup l -> NoDup (map hk_nid (all_hooks l))).
  { induction l as [|i l IH]; intros Hin Hnd; [constructor|]. inversion Hnd as [|? ? N1 N2]; subst.
    cbn [all_hooks flat_map]. rewrite map_app. unfold iface_hooks at 1. rewrite map_app.
    assert (Hi : In i (vf_ifaces v)) by (apply Hin; cbn; auto).
    apply nodup_app. split; [|split].
    - apply nodup_app. split; [apply sorted_lt_nodup; apply (wh_sorted h W v i false Hv Hi)|].
      split; [apply sorted_lt_nodup; apply (wh_sorted h W v i true Hv Hi)|].
      intros x X1 X2. apply in_map_iff in X1. apply in_map_iff in X2.
      destruct X1 as (k1 & Y1 & Y2). destruct X2 as (k2 & Z1 & Z2).
      destruct (Un i false k1 i true k2) as [_ C]; auto; congruence.
    - apply IH; auto. intros j Hj. apply Hin. cbn. auto.
    - intros x X1 X2. rewrite <- map_app in X1. apply in_map_iff in X1. apply in_map_iff in X2.
      destruct X1 as (k1 & Y1 & Y2). destruct X2 as (k2 & Z1 & Z2).
      change (In k1 (iface_hooks i)) in Y2. apply in_iface_hooks in Y2. destruct Y2 as (p1 & Y2).
      apply in_all_hooks in Z2. destruct Z2 as (j & p2 & Z2 & Z3).
      destruct (Un i p1 k1 j p2 k2) as [C _]; auto; [apply Hin; cbn; auto|congruence|]. subst j. auto. }
  apply G; auto. apply (NoDup_map_inv if_ptr). apply (wh_iptr h W v Hv).
Qed.

(** ** Trampoline stage of RevertAndRemoveVfnPtr *)
Definition thunk_stage (k : core) (v : vfn) : option core :=
  match vf_thunk v with
  | None => Some k
  | Some th =>
      let t := h_nxt (c_h k) in
      let h' := set_nxt (c_h k) (S t) in
      match attach_task (cs_depth (c_cs k)) (vf_obj v) t (cs_slots (c_cs k)) with
      | Some l => Some (Core h' (Cs l (cs_depth (c_cs k))) ((t, th) :: c_tasks k))
      | None => run_task (Core h' (c_cs k) ((t, th) :: c_tasks k)) t
      end
  end.

Definition thunks_l (l : list vfn) : list nat :=
  flat_map (fun v => match vf_thunk v with Some t => [t] | None => [] end) l.

(** What the stage does to the context stack and the tasks. *)
Definition stage_cs (k k1 : core) (v : vfn) : Prop :=
  match vf_thunk v with
  | None => c_cs k1 = c_cs k /\ c_tasks k1 = c_tasks k
  | Some th =>
      match attach_task (cs_depth (c_cs k)) (vf_obj v) (h_nxt (c_h k)) (cs_slots (c_cs k)) with
      | Some l => c_cs k1 = Cs l (cs_depth (c_cs k)) /\ c_tasks k1 = (h_nxt (c_h k), th) :: c_tasks k
      | None => c_cs k1 = c_cs k /\ c_tasks k1 = c_tasks k
      end
  end.

Lemma in_thunks_l : forall l t, In t (thunks_l l) <-> exists v, In v l /\ vf_thunk v = Some t.
Proof.
  intros l t. unfold thunks_l. rewrite in_flat_map. split.
  - intros (v & H1 & H2). exists v. split; auto. destruct (vf_thunk v) as [x|]; [|destruct H2]. destruct H2 as [->|[]]. reflexivity.
  - intros (v & H1 & H2). exists v. split; auto. rewrite H2. left. reflexivity.
Qed.

Lemma thunks_del : forall o l v, NoDup (map vf_obj l) -> In v l -> vf_obj v = o ->
  Permutation (thunks_l l) ((match vf_thunk v with Some t => [t] | None => [] end) ++ thunks_l (del_first (vfn_is o) l)).
Proof.
  intros o l v Nd Hv Eo. induction l as [|a l IH]; [destruct Hv|]. cbn [map] in Nd. inversion Nd as [|? ? N1 N2]; subst.
  cbn [del_first thunks_l flat_map]. destruct (vfn_is (vf_obj v) a) eqn:E.
  - apply (sel_vfn_is (vf_obj v)) in E. destruct Hv as [->|Hv]; [apply Permutation_refl|].
    exfalso. apply N1. rewrite E. apply in_map. exact Hv.
  - destruct Hv as [->|Hv].
    + exfalso. unfold vfn_is in E. rewrite Nat.eqb_refl in E. discriminate.
    + specialize (IH N2 Hv). cbn [flat_map]. fold (thunks_l l). fold (thunks_l (del_first (vfn_is (vf_obj v)) l)).
      eapply Permutation_trans; [apply Permutation_app_head; exact IH|]. rewrite !app_assoc.
      apply Permutation_app_tail. apply Permutation_app_comm.
Qed.

Lemma thunk_stage_spec : forall k v, WT (c_h k) (c_tasks k) -> NoDup (map vf_obj (h_vfns (c_h k))) -> In v (h_vfns (c_h k)) ->
  exists k1, thunk_stage k v = Some k1 /\ stage_cs k k1 v /\
    h_pfs (c_h k1) = h_pfs (c_h k) /\ h_mshi (c_h k1) = h_mshi (c_h k) /\ h_mans (c_h k1) = h_mans (c_h k) /\
    h_vfns (c_h k1) = h_vfns (c_h k) /\ h_ids (c_h k1) = h_ids (c_h k) /\ h_mem (c_h k1) = h_mem (c_h k) /\
    h_vt (c_h k1) = h_vt (c_h k) /\ h_delegs (c_h k1) = h_delegs (c_h k) /\ h_nxt (c_h k) <= h_nxt (c_h k1) /\
    mstep (c_h k) (c_h k1) /\
    (forall h', thunks_l (h_vfns h') = thunks_l (del_first (vfn_is (vf_obj v)) (h_vfns (c_h k))) ->
                h_thunks h' = h_thunks (c_h k1) -> h_nxt (c_h k1) <= h_nxt h' -> WT h' (c_tasks k1)).
Proof.
  intros [h cs ts] v T Nd Hv. cbn [c_h c_tasks c_cs] in *. unfold thunk_stage, stage_cs. cbn [c_h c_tasks c_cs].
  pose proof (thunks_del (vf_obj v) (h_vfns h) v Nd Hv eq_refl) as P. change (vfn_thunks h) with (thunks_l (h_vfns h)) in *.
  destruct (vf_thunk v) as [th|] eqn:Eth.
  - cbn [app] in P. set (D := thunks_l (del_first (vfn_is (vf_obj v)) (h_vfns h))) in *.
    assert (PA : Permutation (thunks_l (h_vfns h) ++ map snd ts) (th :: D ++ map snd ts)).
    { change (th :: D ++ map snd ts) with ((th :: D) ++ map snd ts). apply Permutation_app_tail. exact P. }
    assert (N1 : NoDup (th :: D ++ map snd ts)).
    { apply (Permutation_NoDup PA). apply (wt_nd h ts T). }
    assert (L1 : forall t, In t (th :: D ++ map snd ts) <-> In t (h_thunks h)).
    { intros t. rewrite <- (wt_live h ts T t). split; apply Permutation_in; [apply Permutation_sym|]; exact PA. }
    assert (Ft : ~ In (h_nxt h) (map fst ts)).
    { intros C. pose proof (wt_freshk h ts T _ C). lia. }
    destruct (attach_task (cs_depth cs) (vf_obj v) (h_nxt h) (cs_slots cs)) as [l|] eqn:Ea.
    + eexists. split; [reflexivity|]. cbn [c_h c_cs c_tasks h_pfs h_mshi h_mans h_vfns h_ids h_mem h_vt h_delegs h_nxt set_nxt].
      split; [auto|]. repeat (split; [reflexivity|]). split; [lia|]. split.
      { apply mstep_same0; try reflexivity. cbn. lia. }
      intros h' E1 E2 E3. unfold D in *. constructor; cbn [map fst snd]; change (vfn_thunks h') with (thunks_l (h_vfns h')); rewrite ?E1, ?E2.
      * eapply Permutation_NoDup; [|exact N1]. apply Permutation_middle.
      * intros t. rewrite <- (L1 t). split; apply Permutation_in; [apply Permutation_sym|]; apply Permutation_middle.
      * apply (wt_tnd h ts T).
      * constructor; [exact Ft|apply (wt_task h ts T)].
      * cbn [h_thunks set_nxt]. intros t Ht. pose proof (wt_fresh h ts T t Ht). lia.
      * intros t [<-|Ht]; [lia|]. pose proof (wt_freshk h ts T t Ht). lia.
    + unfold run_task. cbn [c_tasks find fst c_h]. rewrite Nat.eqb_refl.
      assert (Mth : memb th (h_thunks h) = true) by (apply memb_in; apply L1; left; reflexivity).
      unfold thunk_free. cbn [h_thunks set_nxt]. rewrite Mth. cbn [del_first fst]. rewrite Nat.eqb_refl.
      eexists. split; [reflexivity|]. cbn [c_h c_cs c_tasks h_pfs h_mshi h_mans h_vfns h_ids h_mem h_vt h_delegs h_nxt set_nxt emit set_tr set_thunks h_thunks].
      split; [auto|]. repeat (split; [reflexivity|]). split; [lia|]. split.
      { apply (mstep_same _ _ [OThunkFree th]); try reflexivity; cbn; [lia| |].
        - repeat constructor.
        - intros o. split; reflexivity. }
      inversion N1 as [|? ? N2 N3]; subst.
      intros h' E1 E2 E3. constructor; change (vfn_thunks h') with (thunks_l (h_vfns h')); rewrite ?E1, ?E2; cbn [h_thunks].
      * exact N3.
      * intros t. rewrite in_del_nat by (apply (wt_tnd h ts T)). rewrite <- (L1 t). cbn [In]. split.
        { intros H. split; auto. intros ->. apply N2. exact H. }
        intros [[->|H] Hn]; [congruence|exact H].
      * apply nodup_del_first_id. apply (wt_tnd h ts T).
      * apply (wt_task h ts T).
      * intros t Ht. apply in_del_first_weak in Ht. pose proof (wt_fresh h ts T t Ht). lia.
      * intros t Ht. pose proof (wt_freshk h ts T t Ht). lia.
  - eexists. split; [reflexivity|]. cbn [c_h c_cs c_tasks]. split; [auto|]. repeat (split; [reflexivity|]).
    split; [apply mstep_refl|]. cbn [app] in P.
    intros h' E1 E2 E3. constructor; change (vfn_thunks h') with (thunks_l (h_vfns h')); rewrite ?E1, ?E2.
    + eapply Permutation_NoDup; [|apply (wt_nd h ts T)]. apply Permutation_app_tail. exact P.
    + intros t. rewrite <- (wt_live h ts T t). split; apply Permutation_in; apply Permutation_app_tail; [apply Permutation_sym|]; exact P.
    + apply (wt_tnd h ts T).
    + apply (wt_task h ts T).
    + intros t Ht. pose proof (wt_fresh h ts T t Ht). lia.
    + intros t Ht. pose proof (wt_freshk h ts T t Ht). lia.
Qed.

(** ** RevertAndRemoveVfnPtr *)
Definition drop_stage (h : hs) (v : vfn) : option hs :=
  match vf_mans v with [] => Some h | m :: _ => decr_ref h m (vf_obj v) end.

Lemma revert_spec : forall k v (P : list man -> Prop),
  WT (c_h k) (c_tasks k) -> NoDup (map vf_obj (h_vfns (c_h k))) -> In v (h_vfns (c_h k)) ->
  (forall h2, h_mans h2 = h_mans (c_h k) -> h_pfs h2 = h_pfs (c_h k) ->
     exists h3, drop_stage h2 v = Some h3 /\ mans_upd h2 h3 /\ mstep h2 h3 /\ P (h_mans h3)) ->
  NoDup (map hk_nid (all_hooks (vf_ifaces v))) -> NoDup (h_delegs (c_h k)) ->
  (forall x, In x (all_hooks (vf_ifaces v)) -> In (hk_nid x) (h_delegs (c_h k))) ->
  exists k', revert_and_remove k v = Some k' /\ stage_cs k k' v /\
    h_pfs (c_h k') = h_pfs (c_h k) /\ h_ids (c_h k') = h_ids (c_h k) /\ h_vt (c_h k') = h_vt (c_h k) /\
    h_vfns (c_h k') = del_first (vfn_is (vf_obj v)) (h_vfns (c_h k)) /\
    h_mem (c_h k') = zupd (h_mem (c_h k)) (vf_ptr v) (vf_orig v) /\
    map mkey4 (h_mans (c_h k')) = map mkey4 (h_mans (c_h k)) /\ P (h_mans (c_h k')) /\
    h_nxt (c_h k) <= h_nxt (c_h k') /\ mstep (c_h k) (c_h k') /\ WT (c_h k') (c_tasks k') /\
    NoDup (h_delegs (c_h k')) /\
    (forall n, In n (h_delegs (c_h k')) <-> In n (h_delegs (c_h k)) /\ ~ In n (map hk_nid (all_hooks (vf_ifaces v)))).
Proof.
  intros k v P T Nd Hv HD Nh Ndel Hin.
  destruct (thunk_stage_spec k v T Nd Hv) as (k1 & E1 & C1 & F1 & F2 & F3 & F4 & F5 & F6 & F7 & F8 & F9 & S1 & T1).
  set (h2 := patch (c_h k1) (vf_ptr v) (vf_orig v)).
  destruct (HD h2) as (h3 & E3 & U3 & S3 & P3); [exact F3|exact F1|].
  destruct (delete_delegs_spec (all_hooks (vf_ifaces v)) h3 Nh) as (h4 & E4 & U4 & S4 & D4 & X4).
  { intros x Hx. rewrite (mu_delegs _ _ U3). change (h_delegs h2) with (h_delegs (c_h k1)). rewrite F8. auto. }
  { rewrite (mu_delegs _ _ U3). change (h_delegs h2) with (h_delegs (c_h k1)). rewrite F8. auto. }
  set (h5 := set_vfns h4 (del_first (vfn_is (vf_obj v)) (h_vfns h4))).
  exists (Core h5 (c_cs k1) (c_tasks k1)). cbn [c_h c_cs c_tasks]. split.
  { unfold revert_and_remove. fold (thunk_stage k v). rewrite E1. cbn zeta. fold h2. fold (drop_stage h2 v). rewrite E3.
    rewrite destroy_ifaces_flat, E4. reflexivity. }
  assert (Ev : h_vfns h4 = h_vfns (c_h k)).
  { rewrite (du_vfns _ _ U4), (mu_vfns _ _ U3). exact F4. }
  assert (En : h_nxt h4 = h_nxt (c_h k1)).
  { rewrite (du_nxt _ _ U4), (mu_nxt _ _ U3). reflexivity. }
  split; [exact C1|].
  split; [cbn; rewrite (du_pfs _ _ U4), (mu_pfs _ _ U3); exact F1|].
  split; [cbn; rewrite (du_ids _ _ U4), (mu_ids _ _ U3); exact F5|].
  split; [cbn; rewrite (du_vt _ _ U4), (mu_vt _ _ U3); exact F7|].
  split; [cbn; rewrite Ev; reflexivity|].
  split; [cbn; rewrite (du_mem _ _ U4), (mu_mem _ _ U3); cbn; rewrite F6; reflexivity|].
  split; [cbn; rewrite (du_mans _ _ U4), (mu_key _ _ U3); cbn; rewrite F3; reflexivity|].
  split; [cbn; rewrite (du_mans _ _ U4); exact P3|].
  split; [cbn; lia|].
  split.
  { eapply mstep_trans; [exact S1|]. eapply mstep_trans; [apply mstep_patch|]. fold h2. eapply mstep_trans; [exact S3|].
    eapply mstep_trans; [exact S4|]. apply mstep_same0; reflexivity. }
  split.
  { apply T1; cbn; [rewrite Ev; reflexivity| |lia]. rewrite (du_thunks _ _ U4), (mu_thunks _ _ U3). reflexivity. }
  split; [exact D4|]. cbn. intros n. rewrite X4, (mu_delegs _ _ U3). change (h_delegs h2) with (h_delegs (c_h k1)). rewrite F8. tauto.
Qed.

(** ** Removing hooks *)
Lemma WH_restrict : forall h h' (D : Z -> bool), WH h ->
  NoDup (map vf_ptr (h_vfns h')) -> NoDup (map vf_obj (h_vfns h')) ->
  (forall y, In y (h_vfns h') -> NoDup (map if_ptr (vf_ifaces y))) ->
  (forall y j, In y (h_vfns h') -> In j (vf_ifaces y) ->
     exists y0 j0, In y0 (h_vfns h) /\ In j0 (vf_ifaces y0) /\ vf_ptr y0 = vf_ptr y /\ if_obj j0 = if_obj j /\ if_ptr j0 = if_ptr j /\
       forall p, StronglySorted lt (map hk_nid (hooks_of p j))) ->
  (forall s a p k, hook_at h' s a p k <-> hook_at h s a p k /\ D (hk_id k) = false) ->
  (forall x, query_hook (h_ids h') x = if D x then None else query_hook (h_ids h) x) ->
  NoDup (h_delegs h') ->
  (forall n, In n (h_delegs h') <-> In n (h_delegs h) /\ forall id e, query_hook (h_ids h) id = Some e -> en_nid e = n -> D id = false) ->
  h_nxt h <= h_nxt h' -> WH h'.
Proof.
  intros h h' D W N1 N2 N3 HI HA HQ ND HD Nx. constructor; auto.
  - intros v1 i1 v2 i2 A1 B1 A2 B2 E.
    destruct (HI v1 i1 A1 B1) as (y1 & j1 & C1 & C2 & C3 & C4 & C5 & _).
    destruct (HI v2 i2 A2 B2) as (y2 & j2 & G1 & G2 & G3 & G4 & G5 & _).
    rewrite <- C3, <- G3, <- C5, <- G5. apply (wh_iobj h W y1 j1 y2 j2); auto. congruence.
  - intros y j p Hy Hj. destruct (HI y j Hy Hj) as (y0 & j0 & _ & _ & _ & _ & _ & S). apply S.
  - intros s a p k H. apply HA in H. destruct H as [H HDk]. rewrite HQ, HDk. apply (wh_entry h W s a p k H).
  - intros id e H. rewrite HQ in H. destruct (D id) eqn:E; [discriminate|]. destruct (wh_hook h W id e H) as (k & K1 & K2).
    exists k. split; auto. apply HA. split; auto. congruence.
  - intros id e id' e' H H'. rewrite HQ in H, H'. destruct (D id); [discriminate|]. destruct (D id'); [discriminate|].
    apply (wh_nid h W id e id' e'); auto.
  - intros n. rewrite HD, (wh_delegs h W n). split.
    + intros [(id & e & Q & E) HDn]. exists id, e. rewrite HQ, (HDn id e Q E). auto.
    + intros (id & e & Q & E). rewrite HQ in Q. destruct (D id) eqn:Ed; [discriminate|]. split; [eauto|].
      intros id' e' Q' E'. replace id' with id; auto. apply (wh_nid h W id e id' e'); auto. congruence.
  - intros y j Hy Hj. destruct (HI y j Hy Hj) as (y0 & j0 & C1 & C2 & _ & C4 & _). pose proof (wh_fresh_i h W y0 j0 C1 C2). lia.
  - intros n Hn. apply HD in Hn. destruct Hn as [Hn _]. pose proof (wh_fresh_n h W n Hn). lia.
Qed.

Record removed (h h' : hs) (D : Z -> bool) : Prop := {
  rv_hooks : forall s a p k, hook_at h' s a p k <-> hook_at h s a p k /\ D (hk_id k) = false;
  rv_query : forall x, query_hook (h_ids h') x = if D x then None else query_hook (h_ids h) x;
  rv_delegs : forall n, In n (h_delegs h') <-> In n (h_delegs h) /\
              forall id e, query_hook (h_ids h) id = Some e -> en_nid e = n -> D id = false;
  rv_pfs : h_pfs h' = h_pfs h; rv_vt : h_vt h' = h_vt h; rv_nxt : h_nxt h <= h_nxt h'; rv_step : mstep h h' }.

Lemma removed_trans : forall a b c D1 D2, removed a b D1 -> removed b c D2 -> removed a c (fun x => D1 x || D2 x).
Proof.
  intros a b c D1 D2 A B. constructor.
  - intros s i p k. rewrite (rv_hooks b c D2 B), (rv_hooks a b D1 A), orb_false_iff. tauto.
  - intros x. rewrite (rv_query b c D2 B), (rv_query a b D1 A). destruct (D1 x), (D2 x); reflexivity.
  - intros n. rewrite (rv_delegs b c D2 B), (rv_delegs a b D1 A). split.
    + intros [[H1 H2] H3]. split; auto. intros id e Q E. rewrite (H2 id e Q E). cbn [orb]. apply (H3 id e); auto.
      rewrite (rv_query a b D1 A), (H2 id e Q E). exact Q.
    + intros [H1 H2]. split; [split; auto|].
      * intros id e Q E. specialize (H2 id e Q E). apply orb_false_iff in H2. apply H2.
      * intros id e Q E. rewrite (rv_query a b D1 A) in Q. destruct (D1 id); [discriminate|].
        specialize (H2 id e Q E). apply orb_false_iff in H2. apply H2.
  - rewrite (rv_pfs b c D2 B). apply (rv_pfs a b D1 A).
  - rewrite (rv_vt b c D2 B). apply (rv_vt a b D1 A).
  - pose proof (rv_nxt b c D2 B). pose proof (rv_nxt a b D1 A). lia.
  - eapply mstep_trans; [apply (rv_step a b D1 A)|apply (rv_step b c D2 B)].
Qed.

Lemma removed_refl : forall h, removed h h (fun _ => false).
Proof.
  intros h. constructor; auto; try (intros; tauto); try apply mstep_refl.
Qed.

Lemma removed_ext : forall h h' D D', (forall x, D x = D' x) -> removed h h' D -> removed h h' D'.
Proof.
  intros h h' D D' E R. constructor; try apply R.
  - intros s a p k. rewrite <- E. apply (rv_hooks h h' D R).
  - intros x. rewrite <- E. apply (rv_query h h' D R).
  - intros n. rewrite (rv_delegs h h' D R). split; intros [H1 H2]; split; auto; intros id e Q En; [rewrite <- E|rewrite E]; eauto.
Qed.

Lemma hid_nodup : forall h v i p, WH h -> In v (h_vfns h) -> In i (vf_ifaces v) -> NoDup (map hk_id (hooks_of p i)).
Proof.
  intros h v i p W Hv Hi.
  assert (Nn : NoDup (map hk_nid (hooks_of p i))) by (apply sorted_lt_nodup; apply (wh_sorted h W v i p Hv Hi)).
  assert (G : forall l, (forall k, In k l -> In k (hooks_of p i)) -> NoDup (map hk_nid l) -> NoDup (map hk_id l)).
  { induction l as [|a l IH]; intros Hin Hnd; cbn [map] in *; [constructor|]. inversion Hnd as [|? ? H1 H2]; subst.
    constructor.
    - intros C. apply in_map_iff in C. destruct C as (b & C1 & C2). apply H1. apply in_map_iff. exists b. split; auto. f_equal.
      destruct (hook_at_id_eq h (vf_ptr v) (if_ptr i) p b (vf_ptr v) (if_ptr i) p a W) as (_ & _ & _ & E); auto.
      + exists v, i. repeat split; auto. apply Hin. cbn. auto.
      + exists v, i. repeat split; auto. apply Hin. cbn. auto.
    - apply IH; auto. intros j Hj. apply Hin. cbn. auto. }
  apply G; auto.
Qed.

Lemma upd_at_is : forall h v L, WH h -> In v (h_vfns h) ->
  upd_first (vfn_at (vf_ptr v)) (fun _ => set_vf_ifaces L v) (h_vfns h) =
  upd_first (vfn_is (vf_obj v)) (set_vf_ifaces L) (h_vfns h).
Proof.
  intros h v L W Hv. pose proof (wh_vptr h W) as Np. pose proof (wh_vobj h W) as No.
  induction (h_vfns h) as [|a l IH]; [reflexivity|]. cbn [map] in *. inversion Np as [|? ? P1 P2]; subst.
  inversion No as [|? ? O1 O2]; subst. cbn [upd_first].
  destruct Hv as [->|Hv].
  - unfold vfn_at, vfn_is. rewrite Z.eqb_refl, Nat.eqb_refl. reflexivity.
  - assert (E1 : vfn_at (vf_ptr v) a = false).
    { apply Z.eqb_neq. intros C. apply P1. rewrite C. apply in_map. exact Hv. }
    assert (E2 : vfn_is (vf_obj v) a = false).
    { apply Nat.eqb_neq. intros C. apply O1. rewrite C. apply in_map. exact Hv. }
    rewrite E1, E2, IH; auto.
Qed.

(** The hook found by RemoveHookByID. *)
Definition located (h : hs) (id : Z) (e : entry) (v : vfn) (i : iface) (hk : hook) : Prop :=
  query_hook (h_ids h) id = Some e /\
  find (vfn_at (en_vfnptr e)) (h_vfns h) = Some v /\ find (iface_at (en_adj e)) (vf_ifaces v) = Some i /\
  find (hook_id_is id) (hooks_of (en_post e) i) = Some hk /\
  In v (h_vfns h) /\ vf_ptr v = en_vfnptr e /\ In i (vf_ifaces v) /\ if_ptr i = en_adj e /\
  In hk (hooks_of (en_post e) i) /\ hk_id hk = id /\ en_nid e = hk_nid hk /\ In (hk_nid hk) (h_delegs h).

Lemma locate : forall h id e, WH h -> query_hook (h_ids h) id = Some e -> exists v i hk, located h id e v i hk.
Proof.
  intros h id e W Q. destruct (wh_hook h W id e Q) as (hk & HK & Eid).
  pose proof (wh_entry h W _ _ _ _ HK) as (e' & Q' & F). rewrite Eid in Q'. assert (e' = e) by congruence. subst e'.
  pose proof (hook_in_delegs h _ _ _ _ W HK) as Hd.
  destruct HK as (v & i & H1 & H2 & H3 & H4 & H5). exists v, i, hk. unfold located.
  repeat (split; [assumption|]).
  split; [apply (find_key _ vf_ptr (en_vfnptr e)); auto using sel_vfn_at; apply (wh_vptr h W)|].
  split; [apply (find_key _ if_ptr (en_adj e)); auto using sel_iface_at; apply (wh_iptr h W v H1)|].
  split; [apply (find_key _ hk_id id); auto using sel_hook_id; apply (hid_nodup h v i _ W H1 H3)|].
  repeat (split; [assumption|]). split; [apply F|exact Hd].
Qed.

Section Rem.
  Variables (h : hs) (id : Z) (e : entry) (v : vfn) (i : iface) (hk : hook).
  Hypothesis W : WH h.
  Hypothesis Lc : located h id e v i hk.
  Let post := en_post e.
  Let i' := set_hooks post (del_first (hook_id_is id) (hooks_of post i)) i.

  Lemma rem_hooks : forall p k, In k (hooks_of p i') <-> In k (hooks_of p i) /\ hk_id k <> id.
  Proof.
    destruct Lc as (Q & _ & _ & _ & Hv & Ep & Hi & Ea & Hk & Eid & En & Hd).
    intros p k. unfold i'. destruct (Bool.bool_dec post p) as [<-|Nb].
    - rewrite set_hooks_same. apply (in_del_first _ hk_id id); auto using sel_hook_id.
      apply (hid_nodup h v i post W Hv Hi).
    - rewrite set_hooks_other by exact Nb. split; [|tauto]. intros H. split; auto. intros C. apply Nb.
      destruct (hook_at_id_eq h (vf_ptr v) (if_ptr i) post hk (vf_ptr v) (if_ptr i) p k W) as (_ & _ & E & _); auto.
      + exists v, i. auto.
      + exists v, i. auto.
      + congruence.
  Qed.

  Lemma rem_other : forall j p k, In j (vf_ifaces v) -> if_ptr j <> if_ptr i -> In k (hooks_of p j) -> hk_id k <> id.
  Proof.
    destruct Lc as (Q & _ & _ & _ & Hv & Ep & Hi & Ea & Hk & Eid & En & Hd).
    intros j p k Hj Np Hk' C. apply Np.
    destruct (hook_at_id_eq h (vf_ptr v) (if_ptr j) p k (vf_ptr v) (if_ptr i) post hk W) as (_ & E & _ & _); auto.
    - exists v, j. auto.
    - exists v, i. auto.
    - congruence.
  Qed.

  (** [L]: the interfaces that remain *)
  Variable L : list iface.
  Variable keep : bool.
  Hypothesis HL : forall j, In j L <-> (In j (vf_ifaces v) /\ if_ptr j <> if_ptr i) \/ (keep = true /\ j = i').
  Hypothesis Hkeep : keep = false -> iface_hooks i' = [].
  Hypothesis NL : NoDup (map if_ptr L).

  (** state after erasing the hook from the lists and from the id manager *)
  Variable h' : hs.
  Hypothesis Ev : h_vfns h' = upd_first (vfn_is (vf_obj v)) (set_vf_ifaces L) (h_vfns h).

  Lemma rem_hook_at : forall s a p k, hook_at h' s a p k <-> hook_at h s a p k /\ (id =? hk_id k)%Z = false.
  Proof.
    destruct Lc as (Q & _ & _ & _ & Hv & Ep & Hi & Ea & Hk & Eid & En & Hd).
    intros s a p k. rewrite (upd_hook_at h h' v L (wh_vobj h W) (wh_vptr h W) Hv Ev), Z.eqb_neq. split.
    - intros [[Hs H]|[-> (j & H1 & H2 & H3)]].
      + split; auto. intros C. apply Hs.
        destruct (hook_at_id_eq h s a p k (vf_ptr v) (if_ptr i) post hk W) as (E & _); auto.
        * exists v, i. auto.
        * congruence.
      + apply HL in H1. destruct H1 as [[H1 H4]|[_ ->]].
        * split; [exists v, j; auto|]. apply not_eq_sym. apply (rem_other j p k); auto.
        * unfold i' in H2. rewrite set_hooks_ptr in H2. apply rem_hooks in H3. destruct H3 as [H3 H4]. split; [|auto].
          exists v, i. auto.
    - intros [H Nid]. destruct (Z.eq_dec s (vf_ptr v)) as [E|E]; [|auto]. right. split; auto.
      destruct (hook_at_vfn h v s a p k W Hv (eq_sym E) H) as (j & H1 & H2 & H3).
      destruct (Z.eq_dec (if_ptr j) (if_ptr i)) as [Ej|Ej].
      + assert (j = i) by (apply (iface_unique h v); auto). subst j. exists i'.
        assert (G : In k (hooks_of p i')) by (apply rem_hooks; auto).
        split; [|split; [unfold i'; rewrite set_hooks_ptr; auto|exact G]].
        apply HL. right. split; auto. destruct keep; auto. exfalso.
        assert (X : In k (iface_hooks i')) by (apply in_iface_hooks; exists p; auto). rewrite (Hkeep eq_refl) in X. destruct X.
      + exists j. split; [apply HL; auto|auto].
  Qed.

  Hypothesis Eq : forall x, query_hook (h_ids h') x = if (id =? x)%Z then None else query_hook (h_ids h) x.
  Hypothesis Ed : NoDup (h_delegs h') /\ forall n, In n (h_delegs h') <-> In n (h_delegs h) /\ n <> hk_nid hk.
  Hypothesis Enx : h_nxt h <= h_nxt h'.

  Lemma rem_delegs : forall n, In n (h_delegs h') <-> In n (h_delegs h) /\
     forall x ex, query_hook (h_ids h) x = Some ex -> en_nid ex = n -> (id =? x)%Z = false.
  Proof.
    destruct Lc as (Q & _ & _ & _ & Hv & Ep & Hi & Ea & Hk & Eid & En & Hd).
    intros n. destruct Ed as [_ Ed2]. rewrite Ed2. split; intros [H1 H2]; split; auto.
    - intros x ex Qx Ex. apply Z.eqb_neq. intros C. subst x. apply H2. assert (ex = e) by congruence. subst ex. congruence.
    - intros C. specialize (H2 id e Q). rewrite Z.eqb_refl in H2. assert (true = false) by (apply H2; congruence). discriminate.
  Qed.

  Lemma rem_WH : WH h'.
  Proof.
    destruct Lc as (Q & _ & _ & _ & Hv & Ep & Hi & Ea & Hk & Eid & En & Hd).
    pose proof (upd_in h h' v L (wh_vobj h W) Hv Ev) as UI.
    apply (WH_restrict h h' (fun x => (id =? x)%Z) W); auto.
    - rewrite Ev, map_upd_first_same; [apply (wh_vptr h W)|reflexivity].
    - rewrite Ev, map_upd_first_same; [apply (wh_vobj h W)|reflexivity].
    - intros y Hy. apply UI in Hy. destruct Hy as [[Hy _]| ->]; [apply (wh_iptr h W y Hy)|exact NL].
    - intros y j Hy Hj. apply UI in Hy. destruct Hy as [[Hy _]| ->].
      + exists y, j. repeat split; auto. intros p. apply (wh_sorted h W y j p Hy Hj).
      + cbn [vf_ifaces set_vf_ifaces] in Hj. apply HL in Hj. destruct Hj as [[Hj _]|[_ ->]].
        * exists v, j. repeat split; auto. intros p. apply (wh_sorted h W v j p Hv Hj).
        * exists v, i. unfold i'. rewrite set_hooks_obj, set_hooks_ptr. repeat split; auto. intros p.
          destruct (Bool.bool_dec post p) as [<-|Nb].
          { rewrite set_hooks_same. apply sorted_del_first. apply (wh_sorted h W v i post Hv Hi). }
          rewrite set_hooks_other by exact Nb. apply (wh_sorted h W v i p Hv Hi).
    - intros s a p k. apply rem_hook_at.
    - apply Ed.
    - intros n. apply rem_delegs.
  Qed.
End Rem.

Lemma iface_hooks_cases : forall i, (exists x l, if_pre i ++ if_post i = x :: l /\ iface_hooks i <> []) \/ (if_pre i ++ if_post i = [] /\ iface_hooks i = []).
Proof.
  intros i. unfold iface_hooks. destruct (if_pre i ++ if_post i) as [|x l]; [right; auto|]. left. exists x, l. split; [reflexivity|discriminate].
Qed.

Definition vfns_less (h : hs) (o : nat) (ms : list man) : Prop :=
  forall x lx', option_map mn_vfns (find (man_is x) ms) = Some lx' -> NoDup lx' /\
    forall vo, In vo lx' <-> (vo <> o /\ exists lx, vfns_of h x = Some lx /\ In vo lx).

Lemma WM_front : forall m0 h v, WM m0 h -> In v (h_vfns h) -> vf_mans v <> [] ->
  forall h2, h_mans h2 = h_mans h -> h_pfs h2 = h_pfs h ->
  exists h3, drop_stage h2 v = Some h3 /\ mans_upd h2 h3 /\ mstep h2 h3 /\ vfns_less h (vf_obj v) (h_mans h3).
Proof.
  intros m0 h v M Hv Hn h2 E1 E2. unfold drop_stage. destruct (vf_mans v) as [|o rest] eqn:Em; [congruence|].
  destruct (drop_front m0 h h2 v o rest M Hv Em E1 E2) as (h3 & H1 & H2 & H3 & H4). exists h3. auto.
Qed.

(** The context stack after the removal of a hook. *)
Definition rem_cs1 (k : core) (id : Z) (e : entry) (i : iface) (hk : hook) : cstack :=
  cs_map (ctx_hook_removed (hk_nid hk)
            (iter_before (if_obj i) (en_post e) (IEnd (if_obj i) (en_post e)) id (hooks_of (en_post e) i))) (c_cs k).

(** The three ways a removal can end: the iface stays, the iface goes, the
    vfnptr goes. *)
Definition rem_shape (k k' : core) (id : Z) (e : entry) (v : vfn) (i : iface) (hk : hook) : Prop :=
  let i' := set_hooks (en_post e) (del_first (hook_id_is id) (hooks_of (en_post e) i)) i in
  let cs1 := rem_cs1 k id e i hk in
  (iface_hooks i' <> [] /\ c_cs k' = cs1 /\ c_tasks k' = c_tasks k /\
   h_vfns (c_h k') = upd_first (vfn_is (vf_obj v))
      (set_vf_ifaces (upd_first (iface_at (en_adj e)) (fun _ => i') (vf_ifaces v))) (h_vfns (c_h k))) \/
  (iface_hooks i' = [] /\ del_first (iface_at (en_adj e)) (vf_ifaces v) <> [] /\
   c_cs k' = cs_map (ctx_iface_removed (if_obj i)) cs1 /\ c_tasks k' = c_tasks k /\
   h_vfns (c_h k') = upd_first (vfn_is (vf_obj v))
      (set_vf_ifaces (del_first (iface_at (en_adj e)) (vf_ifaces v))) (h_vfns (c_h k))) \/
  (iface_hooks i' = [] /\ vf_ifaces v = [i] /\
   h_vfns (c_h k') = del_first (vfn_is (vf_obj v)) (h_vfns (c_h k)) /\
   exists h2, h_nxt h2 = h_nxt (c_h k) /\
     stage_cs (Core h2 (cs_map (ctx_vfn_removed (vf_obj v)) (cs_map (ctx_iface_removed (if_obj i)) cs1)) (c_tasks k)) k' v).

Lemma stage_cs_ifaces : forall k k1 v L, stage_cs k k1 (set_vf_ifaces L v) -> stage_cs k k1 v.
Proof. intros k k1 v L H. exact H. Qed.

Lemma mkey4_refl_eq : forall (h : hs) l, h_mans h = l -> map mkey4 (h_mans h) = map mkey4 l.
Proof. intros h l ->. reflexivity. Qed.

Theorem remove_by_id_ok : forall m0 k id e, WF m0 k -> query_hook (h_ids (c_h k)) id = Some e ->
  exists v i hk k', located (c_h k) id e v i hk /\ remove_by_id k id = Some (k', true) /\ WF m0 k' /\
    removed (c_h k) (c_h k') (fun x => (id =? x)%Z) /\ map mkey4 (h_mans (c_h k')) = map mkey4 (h_mans (c_h k)) /\
    rem_shape k k' id e v i hk.
Proof.
  intros m0 k id e [M H N T] Q. destruct (locate (c_h k) id e H Q) as (v & i & hk & Lc).
  exists v, i, hk. pose proof Lc as (_ & F1 & F2 & F3 & Hv & Ep & Hi & Ea & Hk & Eid & En & Hd).
  destruct (delete_deleg_spec (c_h k) (hk_nid hk) Hd (wh_dnd _ H)) as (h1 & E1 & U1 & S1 & D1 & _ & _ & X1).
  set (i' := set_hooks (en_post e) (del_first (hook_id_is id) (hooks_of (en_post e) i)) i).
  pose proof (upd_at_is (c_h k) v) as UA. rewrite Ep in UA.
  assert (Q1 : forall x, query_hook (id_remove (h_ids h1) id) x = if (id =? x)%Z then None else query_hook (h_ids (c_h k)) x).
  { intros x. rewrite id_remove_query, (du_ids _ _ U1), Z.eqb_sym. reflexivity. }
  assert (Nx1 : h_nxt (c_h k) <= h_nxt h1) by (rewrite (du_nxt _ _ U1); lia).
  assert (Nip : NoDup (map if_ptr (vf_ifaces v))) by (apply (wh_iptr _ H v Hv)).
  unfold remove_by_id. rewrite Q, F1, F2, F3, E1. cbn zeta. fold i'. rewrite (du_vfns _ _ U1).
  destruct (N v Hv) as (Nm & Ni & Nh).
  assert (WMx : forall L h', h_vfns h' = upd_first (vfn_is (vf_obj v)) (set_vf_ifaces L) (h_vfns (c_h k)) ->
             h_mans h' = h_mans (c_h k) -> h_mem h' = h_mem (c_h k) -> h_pfs h' = h_pfs (c_h k) -> h_nxt (c_h k) <= h_nxt h' -> WM m0 h').
  { intros L h' G1 G2 G3 G4 G5. apply (WM_ext_mu m0 (c_h k) h' M); auto. rewrite G1. apply map_upd_first_same. reflexivity. }
  assert (Tx : forall L h', h_vfns h' = upd_first (vfn_is (vf_obj v)) (set_vf_ifaces L) (h_vfns (c_h k)) -> vfn_thunks h' = vfn_thunks (c_h k)).
  { intros L h' G1. apply (upd_thunks (c_h k) h' v L G1). }
  (* membership in the two lists of interfaces *)
  assert (HLu : forall j, In j (upd_first (iface_at (en_adj e)) (fun _ => i') (vf_ifaces v)) <->
             (In j (vf_ifaces v) /\ if_ptr j <> if_ptr i) \/ (true = true /\ j = i')).
  { intros j. rewrite (in_upd_first _ if_ptr (en_adj e)) by (auto using sel_iface_at). rewrite Ea. split.
    - intros [G|(x & G1 & G2 & ->)]; auto.
    - intros [G|[_ ->]]; auto. right. exists i. auto. }
  assert (HLd : forall j, In j (del_first (iface_at (en_adj e)) (vf_ifaces v)) <->
             (In j (vf_ifaces v) /\ if_ptr j <> if_ptr i) \/ (false = true /\ j = i')).
  { intros j. rewrite (in_del_first _ if_ptr (en_adj e)) by (auto using sel_iface_at). rewrite Ea.
    split; [tauto|]. intros [G|[G _]]; [auto|discriminate]. }
  assert (NLu : NoDup (map if_ptr (upd_first (iface_at (en_adj e)) (fun _ => i') (vf_ifaces v)))).
  { rewrite (map_upd_first_find _ _ _ _ i F2); auto. unfold i'. apply set_hooks_ptr. }
  assert (NLd : NoDup (map if_ptr (del_first (iface_at (en_adj e)) (vf_ifaces v)))) by (apply nodup_del_first; auto).
  (* the common part *)
  assert (Gen : forall L keep, (forall j, In j L <-> (In j (vf_ifaces v) /\ if_ptr j <> if_ptr i) \/ (keep = true /\ j = i')) ->
     (keep = false -> iface_hooks i' = []) -> NoDup (map if_ptr L) ->
     let h2 := set_vfns h1 (upd_first (vfn_at (en_vfnptr e)) (fun _ => set_vf_ifaces L v) (h_vfns (c_h k))) in
     h_vfns h2 = upd_first (vfn_is (vf_obj v)) (set_vf_ifaces L) (h_vfns (c_h k)) /\ WM m0 h2 /\
     forall h', h_vfns h' = h_vfns h2 -> h_ids h' = id_remove (h_ids h1) id -> h_delegs h' = h_delegs h1 -> h_nxt h1 <= h_nxt h' -> WH h' /\
       (forall s a p k0, hook_at h' s a p k0 <-> hook_at (c_h k) s a p k0 /\ (id =? hk_id k0)%Z = false)).
  { intros L keep G1 G2 G3 h2. assert (Ev : h_vfns h2 = upd_first (vfn_is (vf_obj v)) (set_vf_ifaces L) (h_vfns (c_h k))).
    { unfold h2. cbn [h_vfns set_vfns]. apply UA; auto. }
    split; [exact Ev|]. split.
    { apply (WMx L h2 Ev); cbn; [apply (du_mans _ _ U1)|apply (du_mem _ _ U1)|apply (du_pfs _ _ U1)|exact Nx1]. }
    intros h' V1 V2 V3 V4. rewrite <- V1 in Ev. split.
    - apply (rem_WH (c_h k) id e v i hk H Lc L keep G1 G2 G3 h' Ev).
      + intros x. rewrite V2. apply Q1.
      + rewrite V3. auto.
      + lia.
    - apply (rem_hook_at (c_h k) id e v i hk H Lc L keep G1 G2 h' Ev). }
  assert (Rm : forall h', (forall s a p k0, hook_at h' s a p k0 <-> hook_at (c_h k) s a p k0 /\ (id =? hk_id k0)%Z = false) ->
       h_ids h' = id_remove (h_ids h1) id -> (forall n, In n (h_delegs h') <-> In n (h_delegs h1)) -> NoDup (h_delegs h') -> h_pfs h' = h_pfs (c_h k) -> h_vt h' = h_vt (c_h k) ->
       h_nxt (c_h k) <= h_nxt h' -> mstep (c_h k) h' -> removed (c_h k) h' (fun x => (id =? x)%Z)).
  { intros h' G1 G2 G3 G3' G4 G5 G6 G7. constructor; auto.
    - intros x. rewrite G2. apply Q1.
    - apply (rem_delegs (c_h k) id e v i hk Lc h'). split; [auto|]. intros n. rewrite G3. apply X1. }
  destruct (iface_hooks_cases i') as [(x & l & Ex & Hne)|[Ex He]]; rewrite Ex.
  - (* the iface stays *)
    destruct (Gen _ true HLu ltac:(discriminate) NLu) as (Ev & M2 & G).
    set (h2 := set_vfns h1 (upd_first (vfn_at (en_vfnptr e)) (fun _ => set_vf_ifaces (upd_first (iface_at (en_adj e)) (fun _ => i') (vf_ifaces v)) v) (h_vfns (c_h k)))) in *.
    set (h3 := set_ids h2 (id_remove (h_ids h2) id)).
    destruct (G h3) as [H3 HA]; try reflexivity.
    exists (Core h3 (rem_cs1 k id e i hk) (c_tasks k)). split; [exact Lc|]. split; [reflexivity|].
    assert (S3 : mstep (c_h k) h3) by (eapply mstep_trans; [exact S1|]; apply mstep_same0; reflexivity).
    split.
    { constructor; cbn [c_h c_tasks].
      - apply (WM_ext_mu m0 h2 h3 M2); reflexivity.
      - exact H3.
      - intros w Hw. change (h_vfns h3) with (h_vfns h2) in Hw. pose proof (upd_in (c_h k) h2 v _ (wh_vobj _ H) Hv Ev) as UI.
        apply UI in Hw. destruct Hw as [[Hw _]| ->]; [apply N; exact Hw|]. split; [exact Nm|]. split.
        + intros C. cbn in C. assert (X : In i' (upd_first (iface_at (en_adj e)) (fun _ => i') (vf_ifaces v))) by (apply HLu; auto).
          rewrite C in X. destruct X.
        + intros j Hj. cbn [vf_ifaces set_vf_ifaces] in Hj. apply HLu in Hj. destruct Hj as [[Hj _]|[_ ->]]; [apply Nh; exact Hj|].
          rewrite Ex. discriminate.
      - apply (WT_ext (c_h k) h3); auto.
        + apply (Tx _ h3 Ev).
        + apply (du_thunks _ _ U1). }
    split.
    { apply Rm; auto; cbn; [tauto|apply (du_pfs _ _ U1)|apply (du_vt _ _ U1)]. }
    split; [cbn; rewrite (du_mans _ _ U1); reflexivity|]. left. fold i'. split; [exact Hne|]. split; [reflexivity|]. split; [reflexivity|].
    exact Ev.
  - destruct (Gen _ false HLd (fun _ => He) NLd) as (Ev & M2 & G).
    set (L := del_first (iface_at (en_adj e)) (vf_ifaces v)) in *.
    set (h2 := set_vfns h1 (upd_first (vfn_at (en_vfnptr e)) (fun _ => set_vf_ifaces L v) (h_vfns (c_h k)))) in *.
    pose proof (upd_in (c_h k) h2 v _ (wh_vobj _ H) Hv Ev) as UI.
    cbn [vf_ifaces set_vf_ifaces].
    destruct L as [|j0 L0] eqn:EL.
    + (* the vfnptr goes *)
      set (cs3 := cs_map (ctx_vfn_removed (vf_obj v)) (cs_map (ctx_iface_removed (if_obj i)) (rem_cs1 k id e i hk))).
      assert (Hv2 : In (set_vf_ifaces [] v) (h_vfns h2)) by (apply UI; auto).
      assert (T2 : WT h2 (c_tasks k)) by (apply (WT_ext (c_h k) h2); auto; [apply (Tx [] h2 Ev)|apply (du_thunks _ _ U1)]).
      assert (No2 : NoDup (map vf_obj (h_vfns h2))) by (apply (wm_vobj m0 h2 M2)).
      destruct (revert_spec (Core h2 cs3 (c_tasks k)) (set_vf_ifaces [] v) (vfns_less h2 (vf_obj v)) T2 No2 Hv2
                 (WM_front m0 h2 (set_vf_ifaces [] v) M2 Hv2 Nm)) as
        (k4 & E4 & C4 & A1 & A2 & A3 & A4 & A5 & A6 & A7 & A8 & S4 & T4 & D4 & X4); cbn [c_h c_tasks c_cs] in *.
      { constructor. }
      { exact D1. }
      { intros y []. }
      unfold cs3, rem_cs1 in E4. rewrite E4. clear UA.
      set (h5 := set_ids (c_h k4) (id_remove (h_ids (c_h k4)) id)).
      exists (Core h5 (c_cs k4) (c_tasks k4)). split; [exact Lc|]. split; [reflexivity|].
      set (hx := set_ids h2 (id_remove (h_ids h1) id)).
      destruct (G hx) as [Hx HAx]; try reflexivity.
      assert (Vs : forall w, In w (h_vfns (c_h k4)) <-> In w (h_vfns (c_h k)) /\ vf_obj w <> vf_obj v).
      { intros w. rewrite A4. cbn [vf_obj set_vf_ifaces]. rewrite (in_del_first _ vf_obj (vf_obj v)) by (auto using sel_vfn_is).
        rewrite UI. split; [intros [[[B1 B2]| ->] B3]; [auto|cbn in B3; congruence]|tauto]. }
      assert (Vd : h_vfns (c_h k4) = del_first (vfn_is (vf_obj v)) (h_vfns (c_h k))).
      { rewrite A4, Ev. cbn [vf_obj set_vf_ifaces]. clear. induction (h_vfns (c_h k)) as [|a l IH]; [reflexivity|].
        cbn [upd_first del_first]. destruct (vfn_is (vf_obj v) a) eqn:E; cbn [del_first].
        - unfold vfn_is in *. cbn [vf_obj set_vf_ifaces]. rewrite E. reflexivity.
        - rewrite E, IH. reflexivity. }
      assert (HA5 : forall s a p k0, hook_at h5 s a p k0 <-> hook_at (c_h k) s a p k0 /\ (id =? hk_id k0)%Z = false).
      { intros s a p k0. rewrite <- HAx. change (hook_at h5 s a p k0) with (hook_at (c_h k4) s a p k0).
        change (hook_at hx s a p k0) with (hook_at h2 s a p k0). split.
        - intros (w & j & B1 & B2). apply Vs in B1. exists w, j. split; auto. apply UI. left. exact B1.
        - intros (w & j & B1 & B2 & B3 & B4). apply UI in B1. destruct B1 as [B1| ->]; [|destruct B3].
          exists w, j. split; auto. apply Vs. exact B1. }
      assert (Nx5 : h_nxt (c_h k) <= h_nxt h5) by (cbn; change (h_nxt h2) with (h_nxt h1) in A8; lia).
      assert (Ei5 : h_ids h5 = id_remove (h_ids h1) id) by (cbn [h_ids set_ids h5]; rewrite A2; reflexivity).
      assert (Xd : forall n, In n (h_delegs h5) <-> In n (h_delegs h1)).
      { intros n. change (h_delegs h5) with (h_delegs (c_h k4)). rewrite X4. cbn. tauto. }
      assert (S5 : mstep (c_h k) h5).
      { eapply mstep_trans; [exact S1|]. apply mstep_trans with (b := h2); [apply mstep_same0; reflexivity|].
        eapply mstep_trans; [exact S4|]. apply mstep_same0; reflexivity. }
      split.
      { constructor; cbn [c_h c_tasks].
        - apply (WM_ext_mu m0 (c_h k4) h5); try reflexivity.
          apply (WM_delete m0 h2 (c_h k4) (set_vf_ifaces [] v) M2 Hv2); auto.
          rewrite A4. reflexivity.
        - apply (WH_restrict hx h5 (fun _ => false) Hx).
          + change (h_vfns h5) with (h_vfns (c_h k4)). rewrite Vd. apply nodup_del_first. apply (wh_vptr _ H).
          + change (h_vfns h5) with (h_vfns (c_h k4)). rewrite Vd. apply nodup_del_first. apply (wh_vobj _ H).
          + intros y Hy. apply Vs in Hy. apply (wh_iptr _ H y). apply Hy.
          + intros y j Hy Hj. apply Vs in Hy. exists y, j. split; [apply UI; auto|]. repeat (split; [auto|]).
            intros p. apply (wh_sorted _ H y j p); [apply Hy|exact Hj].
          + intros s a p k0. rewrite HA5, HAx. tauto.
          + intros x. rewrite Ei5. reflexivity.
          + exact D4.
          + intros n. rewrite Xd. change (h_delegs hx) with (h_delegs h1). split; [intros B; split; auto|tauto].
          + cbn. exact A8.
        - intros w Hw. apply Vs in Hw. apply N. apply Hw.
        - apply (WT_ext (c_h k4) h5); auto. }
      split.
      { apply Rm; auto; [exact (eq_trans A1 (du_pfs _ _ U1))|exact (eq_trans A3 (du_vt _ _ U1))]. }
      split; [exact (eq_trans A6 (mkey4_refl_eq h1 _ (du_mans _ _ U1)))|].
      right. right. fold i'. split; [exact He|]. split.
      { assert (K : forall j, In j (vf_ifaces v) -> j = i).
        { intros j Hj. destruct (Z.eq_dec (if_ptr j) (if_ptr i)) as [Ej|Ej]; [apply (iface_unique (c_h k) v); auto|].
          exfalso. apply (HLd j). auto. }
        apply (NoDup_map_inv if_ptr) in Nip. destruct (vf_ifaces v) as [|a [|b l]]; [congruence| |].
        - rewrite (K a); cbn; auto.
        - exfalso. inversion Nip as [|? ? B1 B2]; subst. apply B1. rewrite (K a), (K b); cbn; auto. }
      split; [exact Vd|]. exists h2. split; [cbn; apply (du_nxt _ _ U1)|].
      apply (stage_cs_ifaces _ _ v []). exact C4.
    + (* the iface goes *)
      set (h3 := set_ids h2 (id_remove (h_ids h2) id)).
      destruct (G h3) as [H3 HA]; try reflexivity.
      exists (Core h3 (cs_map (ctx_iface_removed (if_obj i)) (rem_cs1 k id e i hk)) (c_tasks k)). split; [exact Lc|]. split; [reflexivity|].
      assert (S3 : mstep (c_h k) h3) by (eapply mstep_trans; [exact S1|]; apply mstep_same0; reflexivity).
      split.
      { constructor; cbn [c_h c_tasks].
        - apply (WM_ext_mu m0 h2 h3 M2); reflexivity.
        - exact H3.
        - intros w Hw. change (h_vfns h3) with (h_vfns h2) in Hw.
          apply UI in Hw. destruct Hw as [[Hw _]| ->]; [apply N; exact Hw|]. split; [exact Nm|]. split; [discriminate|].
          intros j Hj. cbn [vf_ifaces set_vf_ifaces] in Hj. apply HLd in Hj. destruct Hj as [[Hj _]|[C _]]; [apply Nh; exact Hj|discriminate].
        - apply (WT_ext (c_h k) h3); auto.
          + apply (Tx _ h3 Ev).
          + apply (du_thunks _ _ U1). }
      split.
      { apply Rm; auto; cbn; [tauto|apply (du_pfs _ _ U1)|apply (du_vt _ _ U1)]. }
      split; [cbn; rewrite (du_mans _ _ U1); reflexivity|]. right. left. fold i'. split; [exact He|]. fold L. rewrite EL.
      split; [discriminate|]. split; [reflexivity|]. split; [reflexivity|]. exact Ev.
Qed.

Theorem remove_by_id_none : forall k id, query_hook (h_ids (c_h k)) id = None -> remove_by_id k id = Some (k, false).
Proof. intros k id Q. unfold remove_by_id. rewrite Q. reflexivity. Qed.
