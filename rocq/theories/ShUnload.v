(** Removal of hook managers, UnloadPlugin, CompleteShutdown. *)
From Coq Require Import List Bool Arith ZArith Lia Sorted Permutation.
From Verif Require Import ProtoModel ShModel ShLists ShInv ShMan ShHooks ShAdd ShRem ShApi.
Import ListNotations.
Local Open Scope nat_scope.

Definition only_man (o : nat) (v : vfn) : bool :=
  match vf_mans v with [x] => x =? o | _ => false end.
Lemma only_man_spec : forall o v, only_man o v = true <-> vf_mans v = [o].
Proof.
  intros o v. unfold only_man. destruct (vf_mans v) as [|x [|y l]]; try (split; [discriminate|intros C; discriminate]).
  rewrite Nat.eqb_eq. split; [intros ->; reflexivity|intros E; injection E; auto].
Qed.

(** Hook ids on a slot *)
Definition on_slot (ids : list entry) (p : Z) (id : Z) : bool :=
  match query_hook ids id with Some e => Z.eqb (en_vfnptr e) p | None => false end.

(** The last manager of a vfnptr goes: so do all hooks on it. *)
Lemma hookman_removed_last : forall m0 k v o, WF m0 k -> In v (h_vfns (c_h k)) -> vf_mans v = [o] ->
  exists h1 v' k2, hookman_removed (c_h k) v o = Some (h1, v', false) /\
    revert_and_remove (Core (set_ids h1 (id_remove_all (h_ids h1) (vf_ptr v))) (c_cs k) (c_tasks k)) v' = Some k2 /\
    WF m0 k2 /\ h_vfns (c_h k2) = del_first (vfn_is (vf_obj v)) (h_vfns (c_h k)) /\
    map mkey4 (h_mans (c_h k2)) = map mkey4 (h_mans (c_h k)) /\
    removed (c_h k) (c_h k2) (on_slot (h_ids (c_h k)) (vf_ptr v)).
Proof.
  intros m0 k v o [M H N T] Hv Em. set (h := c_h k) in *.
  destruct (wm_vfns_get m0 h o v M Hv) as (m & Gm & Hm & Kn & Vm); [rewrite Em; left; reflexivity|].
  destruct (wm_ver m0 h M m Hm) as (inf & I1 & I2 & I3).
  unfold hookman_removed. rewrite Gm.
  destruct (Z.eqb (pf_ver (mn_info m)) (-1)) eqn:Ev; [apply Z.eqb_eq in Ev; congruence|].
  rewrite Em. assert (Mb : memb o [o] = true) by (apply memb_in; left; reflexivity). rewrite Mb, Nat.eqb_refl.
  destruct (drop_front m0 h h v o [] M Hv Em eq_refl eq_refl) as (h1 & E1 & U1 & S1 & V1). rewrite E1.
  set (h2 := set_vfns h1 (upd_first (vfn_is (vf_obj v)) (set_vf_mans []) (h_vfns h1))).
  set (v' := set_vf_mans [] v).
  set (h3 := set_ids h2 (id_remove_all (h_ids h2) (vf_ptr v))).
  assert (Ev3 : h_vfns h3 = upd_first (vfn_is (vf_obj v)) (set_vf_mans []) (h_vfns h)).
  { cbn [h_vfns h3 set_ids h2 set_vfns]. rewrite (mu_vfns _ _ U1). reflexivity. }
  assert (Nv : NoDup (map vf_obj (h_vfns h))) by (apply (wm_vobj m0 h M)).
  assert (Nv3 : NoDup (map vf_obj (h_vfns h3))). { rewrite Ev3, map_upd_first_same; auto. }
  assert (Hv3 : In v' (h_vfns h3)).
  { rewrite Ev3, (in_upd_first _ vf_obj (vf_obj v)) by (auto using sel_vfn_is). right. exists v. auto. }
  set (kk := Core h3 (c_cs k) (c_tasks k)).
  assert (T3 : WT (c_h kk) (c_tasks kk)).
  { apply (WT_ext h h3 (c_tasks k)); [exact T| | |].
    - unfold vfn_thunks. rewrite Ev3. apply (thunks_vsk (h_vfns h)). apply vsk_upd_mans.
    - cbn. apply (mu_thunks _ _ U1).
    - cbn. rewrite (mu_nxt _ _ U1). lia. }
  destruct (revert_spec kk v' (fun l => l = h_mans h1) T3 Nv3 Hv3) as
    (k2 & E2 & _ & P1 & P2 & P3 & P4 & P5 & P6 & P7 & P8 & P9 & P10 & P11 & P12).
  { intros h4 A1 A2. exists h4. cbn [drop_stage v' set_vf_mans vf_mans]. split; [reflexivity|]. split; [apply mans_upd_refl|].
    split; [apply mstep_refl|]. rewrite A1. reflexivity. }
  { apply (all_hooks_nodup h v H Hv). }
  { cbn. rewrite (mu_delegs _ _ U1). apply (wh_dnd h H). }
  { intros x Hx. cbn. rewrite (mu_delegs _ _ U1). cbn [v' vf_ifaces set_vf_mans] in Hx. apply in_all_hooks in Hx.
    destruct Hx as (i & p & Hi & Hp). apply (hook_in_delegs h (vf_ptr v) (if_ptr i) p x H). exists v, i. auto. }
  exists h2, v', k2. split; [reflexivity|]. split; [exact E2|].
  cbn [c_h kk] in P1, P2, P3, P4, P5, P6, P8, P9, P12.
  assert (F1 : h_vfns (c_h k2) = del_first (vfn_is (vf_obj v)) (h_vfns h)).
  { rewrite P4, Ev3. cbn [v' vf_obj set_vf_mans]. clear. induction (h_vfns h) as [|a l IH]; [reflexivity|]. cbn [upd_first del_first].
    destruct (vfn_is (vf_obj v) a) eqn:E; cbn [del_first].
    - change (vfn_is (vf_obj v) (set_vf_mans [] a)) with (vfn_is (vf_obj v) a). rewrite E. reflexivity.
    - rewrite E, IH. reflexivity. }
  assert (In' : forall w, In w (h_vfns (c_h k2)) <-> In w (h_vfns h) /\ vf_obj w <> vf_obj v).
  { intros w. rewrite F1. apply (in_del_first _ vf_obj); auto using sel_vfn_is. }
  assert (Ptr : forall w, In w (h_vfns h) -> (vf_obj w <> vf_obj v <-> vf_ptr w <> vf_ptr v)).
  { intros w Hw. split; intros Hn C; apply Hn.
    - f_equal. apply (nodup_key_inj vf_ptr (h_vfns h)); auto. apply (wm_vptr m0 h M).
    - f_equal. apply (nodup_key_inj vf_obj (h_vfns h)); auto. }
  assert (HA : forall s a p x, hook_at (c_h k2) s a p x <-> hook_at h s a p x /\ on_slot (h_ids h) (vf_ptr v) (hk_id x) = false).
  { intros s a p x. split.
    - intros (w & i & W1 & W2 & W3 & W4 & W5). apply In' in W1. destruct W1 as [W1 Wn].
      assert (Hh : hook_at h s a p x) by (exists w, i; auto). split; auto. unfold on_slot.
      destruct (wh_entry h H s a p x Hh) as (e & Q & F). rewrite Q. apply Z.eqb_neq. destruct F as (F & _).
      rewrite F, <- W2. apply Ptr; auto.
    - intros [Hh Ho]. pose proof Hh as (w & i & W1 & W2 & W3 & W4 & W5). exists w, i. split; [|auto]. apply In'. split; auto.
      apply Ptr; auto. unfold on_slot in Ho. destruct (wh_entry h H s a p x Hh) as (e & Q & F). rewrite Q in Ho.
      apply Z.eqb_neq in Ho. destruct F as (F & _). congruence. }
  assert (HQ : forall x, query_hook (h_ids (c_h k2)) x = if on_slot (h_ids h) (vf_ptr v) x then None else query_hook (h_ids h) x).
  { intros x. rewrite P2. cbn [h_ids h3 set_ids]. rewrite id_remove_all_query. cbn [h_ids h2 set_vfns]. rewrite (mu_ids _ _ U1).
    unfold on_slot. destruct (query_hook (h_ids h) x) as [e|]; [|reflexivity]. destruct (en_vfnptr e =? vf_ptr v)%Z; reflexivity. }
  assert (HD : forall n, In n (h_delegs (c_h k2)) <-> In n (h_delegs h) /\
             forall id e, query_hook (h_ids h) id = Some e -> en_nid e = n -> on_slot (h_ids h) (vf_ptr v) id = false).
  { intros n. rewrite P12. cbn [h_delegs h3 set_ids h2 set_vfns]. rewrite (mu_delegs _ _ U1). cbn [v' vf_ifaces set_vf_mans].
    split; intros [A B]; (split; [exact A|]).
    - intros id e Q En. destruct (on_slot (h_ids h) (vf_ptr v) id) eqn:Eo; auto. exfalso. apply B.
      unfold on_slot in Eo. rewrite Q in Eo. apply Z.eqb_eq in Eo.
      destruct (wh_hook h H id e Q) as (x & Hx & Ex). destruct (wh_entry h H _ _ _ x Hx) as (e' & Q' & F).
      rewrite Ex in Q'. assert (e' = e) by congruence. subst e'.
      destruct (hook_at_vfn h v _ _ _ _ H Hv (eq_sym Eo) Hx) as (i & Hi & _ & Hk).
      replace n with (hk_nid x) by (destruct F as (_ & _ & _ & _ & _ & F & _); congruence).
      apply in_map. apply in_all_hooks. eauto.
    - intros C. apply in_map_iff in C. destruct C as (x & Ex & Hx). apply in_all_hooks in Hx. destruct Hx as (i & p & Hi & Hk).
      assert (Hh : hook_at h (vf_ptr v) (if_ptr i) p x) by (exists v, i; auto).
      destruct (wh_entry h H _ _ _ _ Hh) as (e & Q & F). destruct F as (F1' & _ & _ & _ & _ & F2 & _).
      assert (G : on_slot (h_ids h) (vf_ptr v) (hk_id x) = false) by (apply (B _ e Q); congruence).
      unfold on_slot in G. rewrite Q in G. apply Z.eqb_neq in G. auto. }
  assert (Ek : map mkey4 (h_mans (c_h k2)) = map mkey4 (h_mans h)).
  { rewrite P7. apply (mu_key _ _ U1). }
  assert (Epf : h_pfs (c_h k2) = h_pfs h) by (rewrite P1; cbn; apply (mu_pfs _ _ U1)).
  assert (Enx : h_nxt h <= h_nxt (c_h k2)) by (cbn in P8; rewrite (mu_nxt _ _ U1) in P8; exact P8).
  split; [|split; [exact F1|split; [exact Ek|]]].
  - constructor.
    + apply (WM_delete m0 h (c_h k2) v M Hv).
      * rewrite F1. reflexivity.
      * exact Ek.
      * exact Epf.
      * exact Enx.
      * rewrite P5. cbn. rewrite (mu_mem _ _ U1). reflexivity.
      * intros x lx' Hx. apply (V1 x lx'). unfold vfns_of, get_man in *. rewrite <- P7. exact Hx.
    + apply (WH_restrict h (c_h k2) (on_slot (h_ids h) (vf_ptr v)) H); auto.
      * rewrite F1. apply nodup_del_first. apply (wh_vptr h H).
      * rewrite F1. apply nodup_del_first. exact Nv.
      * intros y Hy. apply In' in Hy. apply (wh_iptr h H). tauto.
      * intros y j Hy Hj. apply In' in Hy. exists y, j. repeat (split; [tauto|]). intros p. apply (wh_sorted h H y j p); tauto.
    + intros y Hy. apply In' in Hy. apply (N y). tauto.
    + exact P10.
  - constructor; auto.
    + rewrite P3. cbn. apply (mu_vt _ _ U1).
    + eapply mstep_trans; [exact S1|]. eapply mstep_trans; [|exact P9]. apply mstep_same0; reflexivity.
Qed.

(** ** The loop over all vfnptrs *)
Definition doomed (h : hs) (o : nat) (l : list nat) (id : Z) : bool :=
  match query_hook (h_ids h) id with
  | Some e => existsb (fun v => memb (vf_obj v) l && Z.eqb (vf_ptr v) (en_vfnptr e) && only_man o v) (h_vfns h)
  | None => false
  end.

Lemma doomed_spec : forall h o l id e, query_hook (h_ids h) id = Some e ->
  (doomed h o l id = true <-> exists v, In v (h_vfns h) /\ In (vf_obj v) l /\ vf_ptr v = en_vfnptr e /\ vf_mans v = [o]).
Proof.
  intros h o l id e Q. unfold doomed. rewrite Q, existsb_exists. split; intros (v & A & B); exists v; (split; [exact A|]).
  - rewrite !andb_true_iff, memb_in, Z.eqb_eq, only_man_spec in B. tauto.
  - rewrite !andb_true_iff, memb_in, Z.eqb_eq, only_man_spec. tauto.
Qed.
Lemma doomed_none : forall h o l id, query_hook (h_ids h) id = None -> doomed h o l id = false.
Proof. intros h o l id Q. unfold doomed. rewrite Q. reflexivity. Qed.
Lemma bool_iff : forall a b : bool, (a = true <-> b = true) -> a = b.
Proof. intros a b [A B]. destruct a, b; auto. symmetry. auto. Qed.

(** What becomes of the manager lists. *)
Definition mans_less (o : nat) (l : list nat) (h h' : hs) : Prop :=
  forall w', In w' (h_vfns h') <->
    exists w, In w (h_vfns h) /\ (In (vf_obj w) l -> vf_mans w <> [o]) /\
      w' = if memb (vf_obj w) l then set_vf_mans (del_first (Nat.eqb o) (vf_mans w)) w else w.

Lemma rm_loop_ok : forall m0 o l k m, WF m0 k -> NoDup l -> get_man (c_h k) o = Some m ->
  (forall vo, In vo l -> exists v, get_vfn (c_h k) vo = Some v) ->
  exists k', rm_hookman_loop k o l = Some k' /\ WF m0 k' /\ map mkey4 (h_mans (c_h k')) = map mkey4 (h_mans (c_h k)) /\
    removed (c_h k) (c_h k') (doomed (c_h k) o l) /\ mans_less o l (c_h k) (c_h k').
Proof.
  intros m0 o l. induction l as [|vo l IH]; intros k m W Nd Gm Hl.
  - exists k. split; [reflexivity|]. split; [exact W|]. split; [reflexivity|]. split.
    + eapply removed_ext; [|apply removed_refl]. intros x. unfold doomed. destruct (query_hook (h_ids (c_h k)) x) as [e|]; [|reflexivity].
      symmetry. apply not_true_iff_false. rewrite existsb_exists. intros (v & _ & C). discriminate.
    + intros w'. split.
      * intros Hw. exists w'. split; [exact Hw|]. split; [intros []|reflexivity].
      * intros (w & Hw & _ & ->). exact Hw.
  - inversion Nd as [|? ? Nvo Nd']; subst.
    destruct (Hl vo (or_introl eq_refl)) as (v & Gv). destruct (get_vfn_obj _ _ _ Gv) as [Hv Ov].
    pose proof (wm_vobj m0 _ (wf_m m0 k W)) as NV. pose proof (wm_vptr m0 _ (wf_m m0 k W)) as NP.
    cbn [rm_hookman_loop]. rewrite Gv.
    destruct (only_man o v) eqn:Eo.
    + apply only_man_spec in Eo.
      destruct (hookman_removed_last m0 k v o W Hv Eo) as (h1 & v' & k2 & E1 & E2 & W2 & F2 & K2 & R2). rewrite E1, E2.
      destruct (key_get_ex _ (c_h k2) o m K2 Gm) as (m2 & Gm2 & _).
      destruct (IH k2 m2 W2 Nd' Gm2) as (k3 & E3 & W3 & K3 & R3 & L3).
      { intros x Hx. destruct (Hl x (or_intror Hx)) as (w & Gw). exists w. destruct (get_vfn_obj _ _ _ Gw) as [Hw Ow].
        unfold get_vfn. apply (find_key _ vf_obj x); [auto using sel_vfn_is| |].
        - apply (wm_vobj m0 _ (wf_m m0 k2 W2)).
        - split; auto. rewrite F2. apply (in_del_first _ vf_obj (vf_obj v)); auto using sel_vfn_is. split; auto. congruence. }
      exists k3. split; [exact E3|]. split; [exact W3|]. split; [congruence|]. split.
      * eapply removed_ext; [|apply (removed_trans _ _ _ _ _ R2 R3)]. intros x. apply bool_iff. rewrite orb_true_iff.
        destruct (query_hook (h_ids (c_h k)) x) as [e|] eqn:Q.
        { rewrite (doomed_spec (c_h k) o (vo :: l) x e Q). unfold on_slot. rewrite Q, Z.eqb_eq.
          destruct (Z.eq_dec (en_vfnptr e) (vf_ptr v)) as [Es|Es].
          - split; [intros _|auto]. exists v. split; auto. split; [left; auto|]. auto.
          - assert (Q2 : query_hook (h_ids (c_h k2)) x = Some e).
            { rewrite (rv_query _ _ _ R2). unfold on_slot. rewrite Q. apply Z.eqb_neq in Es. rewrite Es. reflexivity. }
            rewrite (doomed_spec _ o l x e Q2). split.
            + intros [C|(w & A1 & A2 & A3 & A4)]; [contradiction|]. exists w. rewrite F2 in A1. apply in_del_first_weak in A1. cbn [In]. auto.
            + intros (w & A1 & [A2|A2] & A3 & A4).
              * exfalso. apply Es. rewrite <- A3. f_equal. apply (nodup_key_inj vf_obj (h_vfns (c_h k))); auto. congruence.
              * right. exists w. split; auto. rewrite F2. apply (in_del_first _ vf_obj (vf_obj v)); auto using sel_vfn_is. split; auto.
                intros C. apply Es. rewrite <- A3. f_equal. apply (nodup_key_inj vf_obj (h_vfns (c_h k))); auto. }
        { rewrite (doomed_none (c_h k)) by exact Q. unfold on_slot. rewrite Q.
          rewrite doomed_none; [tauto|]. rewrite (rv_query _ _ _ R2). destruct (on_slot _ _ _); auto. }
      * intros w'. rewrite (L3 w'). split.
        { intros (w & A1 & A2 & A3). rewrite F2 in A1. apply (in_del_first _ vf_obj (vf_obj v)) in A1; auto using sel_vfn_is. destruct A1 as [A1 A4].
          exists w. split; auto. split.
          - intros [C|C]; [congruence|auto].
          - rewrite A3. cbn [memb existsb]. fold (memb (vf_obj w) l). destruct (vf_obj w =? vo) eqn:C; [apply Nat.eqb_eq in C; congruence|reflexivity]. }
        { intros (w & A1 & A2 & A3). assert (Hn : vf_obj w <> vo).
          { intros C. assert (w = v) by (apply (nodup_key_inj vf_obj (h_vfns (c_h k))); auto; congruence). subst w.
            apply A2; [left; auto|exact Eo]. }
          exists w. split; [rewrite F2; apply (in_del_first _ vf_obj (vf_obj v)); auto using sel_vfn_is; split; auto; congruence|].
          split; [intros C; apply A2; right; auto|]. rewrite A3. cbn [memb existsb]. fold (memb (vf_obj w) l).
          destruct (vf_obj w =? vo) eqn:C; [apply Nat.eqb_eq in C; congruence|reflexivity]. }
    + assert (Nm : vf_mans v <> [o]) by (intros C; apply only_man_spec in C; congruence).
      destruct W as [M H N T].
      destruct (hookman_removed_keep m0 (c_h k) v o m M Hv Gm Nm) as (h1 & v' & E1 & M1 & HS1 & K1 & S1 & F1 & Ne1). rewrite E1.
      set (k1 := Core h1 (c_cs k) (c_tasks k)).
      assert (W1 : WF m0 k1).
      { constructor; cbn [c_h c_tasks k1].
        - exact M1.
        - apply (WH_ext (c_h k) h1 H); try apply HS1. rewrite (hsm_nxt _ _ HS1). lia.
        - intros y Hy. rewrite F1 in Hy. rewrite (in_upd_first _ vf_obj (vf_obj v)) in Hy by auto using sel_vfn_is.
          destruct Hy as [[Hy _]|(x & Hx & Ex & ->)]; [apply (N y Hy)|].
          assert (x = v) by (apply (nodup_key_inj vf_obj (h_vfns (c_h k))); auto). subst x.
          destruct (N v Hv) as (N1 & N2 & N3). split; [cbn; auto|]. split; [exact N2|exact N3].
        - apply (WT_ext (c_h k) h1); [exact T| | |].
          + unfold vfn_thunks. apply (thunks_vsk (h_vfns (c_h k))). apply HS1.
          + apply HS1.
          + rewrite (hsm_nxt _ _ HS1). lia. }
      destruct (key_get_ex _ h1 o m K1 Gm) as (m1 & Gm1 & _).
      destruct (IH k1 m1 W1 Nd' Gm1) as (k3 & E3 & W3 & K3 & R3 & L3).
      { intros x Hx. destruct (Hl x (or_intror Hx)) as (w & Gw). exists w. destruct (get_vfn_obj _ _ _ Gw) as [Hw Ow].
        unfold get_vfn. apply (find_key _ vf_obj x); [auto using sel_vfn_is| |].
        - apply (wm_vobj m0 _ M1).
        - split; auto. cbn [c_h k1]. rewrite F1. apply (in_upd_first _ vf_obj (vf_obj v)); auto using sel_vfn_is. left. split; auto. congruence. }
      cbn [c_h k1] in R3, L3, K3.
      assert (InA : forall w, In w (h_vfns h1) <-> (In w (h_vfns (c_h k)) /\ vf_obj w <> vo) \/ w = set_vf_mans (del_first (Nat.eqb o) (vf_mans v)) v).
      { intros w. rewrite F1, (in_upd_first _ vf_obj (vf_obj v)) by auto using sel_vfn_is. rewrite Ov. split.
        - intros [A|(x & A1 & A2 & A3)]; auto. right. assert (x = v) by (apply (nodup_key_inj vf_obj (h_vfns (c_h k))); auto; congruence). congruence.
        - intros [A|A]; auto. right. exists v. auto. }
      exists k3. split; [exact E3|]. split; [exact W3|]. split; [congruence|]. split.
      * assert (R1 : removed (c_h k) h1 (fun _ => false)).
        { constructor; try apply HS1; auto.
          - intros s a p x. rewrite (hook_at_ext (c_h k) h1 s a p x (hsm_vfns _ _ HS1)). tauto.
          - intros x. rewrite (hsm_ids _ _ HS1). reflexivity.
          - intros n. rewrite (hsm_delegs _ _ HS1). tauto.
          - rewrite (hsm_nxt _ _ HS1). lia. }
        eapply removed_ext; [|apply (removed_trans _ _ _ _ _ R1 R3)]. intros x. cbn [orb]. apply bool_iff.
        destruct (query_hook (h_ids (c_h k)) x) as [e|] eqn:Q.
        { rewrite (doomed_spec (c_h k) o (vo :: l) x e Q). rewrite (doomed_spec h1 o l x e) by (rewrite (hsm_ids _ _ HS1); exact Q). split.
          - intros (w & A1 & A2 & A3 & A4). apply InA in A1. destruct A1 as [[A1 _]| ->].
            + exists w. cbn [In]. auto.
            + exfalso. apply Nvo. cbn [vf_obj set_vf_mans] in A2. congruence.
          - intros (w & A1 & [A2|A2] & A3 & A4).
            + exfalso. apply Nm. assert (w = v) by (apply (nodup_key_inj vf_obj (h_vfns (c_h k))); auto; congruence). congruence.
            + exists w. split; [apply InA; left; split; auto; congruence|auto]. }
        { rewrite !doomed_none; [tauto|exact Q|rewrite (hsm_ids _ _ HS1); exact Q]. }
      * intros w'. rewrite (L3 w'). split.
        { intros (w & A1 & A2 & A3). apply InA in A1. destruct A1 as [[A1 A4]| ->].
          - exists w. split; auto. split; [intros [C|C]; [congruence|auto]|]. rewrite A3. cbn [memb existsb]. fold (memb (vf_obj w) l).
            destruct (vf_obj w =? vo) eqn:C; [apply Nat.eqb_eq in C; congruence|reflexivity].
          - exists v. split; auto. split; [auto|]. rewrite A3. cbn [vf_obj set_vf_mans memb existsb]. rewrite Ov, Nat.eqb_refl. cbn [orb].
            assert (Ml : memb vo l = false) by (apply memb_false; exact Nvo). rewrite Ml. reflexivity. }
        { intros (w & A1 & A2 & A3). destruct (Nat.eq_dec (vf_obj w) vo) as [C|C].
          - assert (w = v) by (apply (nodup_key_inj vf_obj (h_vfns (c_h k))); auto; congruence). subst w.
            exists (set_vf_mans (del_first (Nat.eqb o) (vf_mans v)) v). split; [apply InA; auto|].
            assert (Ml : memb vo l = false) by (apply memb_false; exact Nvo).
            split; [cbn [vf_obj set_vf_mans]; rewrite Ov; intros D; apply memb_in in D; congruence|].
            rewrite A3. cbn [vf_obj set_vf_mans memb existsb]. rewrite Ov, Nat.eqb_refl. cbn [orb]. fold (memb vo l). rewrite Ml. reflexivity.
          - exists w. split; [apply InA; auto|]. split; [intros D; apply A2; right; auto|].
            rewrite A3. cbn [memb existsb]. fold (memb (vf_obj w) l). apply Nat.eqb_neq in C. rewrite C. reflexivity. }
Qed.

(** Erasing a manager that no vfnptr lists. *)
Lemma erase_man_mstep : forall m0 h o, WM m0 h -> (forall v, In v (h_vfns h) -> ~ In o (vf_mans v)) ->
  mstep h (set_mans h (del_first (man_is o) (h_mans h))).
Proof.
  intros m0 h o M Hn. set (h' := set_mans h (del_first (man_is o) (h_mans h))).
  assert (G : forall x, get_man h' x = if x =? o then None else get_man h x).
  { intros x. apply find_del_man. apply (wm_mobj m0 h M). }
  assert (Ve : forall l, vfns_of h o = Some l -> l = []).
  { intros [|a l] E; auto. exfalso. destruct (proj1 (wm_act m0 h M o _ a E) (or_introl eq_refl)) as (v & Hv & _ & Hd).
    apply (Hn v Hv). destruct (vf_mans v); [discriminate|]. injection Hd as ->. left. reflexivity. }
  assert (Ac : forall x, active h' x <-> active h x).
  { intros x. unfold active, vfns_of. rewrite G. destruct (x =? o) eqn:E; [|tauto]. apply Nat.eqb_eq in E. subst x. split.
    - intros (a & l & C). discriminate.
    - intros (a & l & C). apply Ve in C. discriminate. }
  assert (Pf : forall x f, man_pf h' x = Some f -> man_pf h x = Some f).
  { intros x f. unfold man_pf. rewrite G. destruct (x =? o); [discriminate|auto]. }
  assert (Pa : forall x f, active h x -> man_pf h x = Some f -> man_pf h' x = Some f).
  { intros x f A Hp. apply Ac in A. destruct A as (a & l & A). unfold vfns_of in A. unfold man_pf. rewrite G in *.
    destruct (x =? o); [discriminate|]. exact Hp. }
  constructor.
  - intros [U A R]. constructor.
    + intros o1 o2 f H1 H2. apply (U o1 o2 f); auto.
    + intros x Hx. apply Ac in Hx. destruct (A x Hx) as (f & H1 & H2). exists f. split; auto.
    + intros f x Hx. destruct (R f x Hx) as [H1 H2]. split; auto. apply Ac. exact H2.
  - intros [R A0]. split; [|exact A0]. intros x. cbn [h' set_mans h_tr]. rewrite (R x). f_equal. unfold act_num, vfns_of. rewrite G. destruct (x =? o) eqn:E; [|reflexivity].
    apply Nat.eqb_eq in E. subst x. cbn [option_map]. destruct (option_map mn_vfns (get_man h o)) as [l|] eqn:V; [|reflexivity].
    rewrite (Ve l V). reflexivity.
  - intros D. exact D.
  - apply tr_more_eq. reflexivity.
Qed.

(** RemoveHookManager *)
Theorem remove_hookman_ok : forall m0 k o m, WF m0 k -> get_man (c_h k) o = Some m ->
  exists k', remove_hookman k o = Some k' /\ WF m0 k' /\
    (forall x, option_map mkey4 (get_man (c_h k') x) = if x =? o then None else option_map mkey4 (get_man (c_h k) x)) /\
    map mkey4 (h_mans (c_h k')) = del_first (fun y => fst (fst y) =? o) (map mkey4 (h_mans (c_h k))) /\
    removed (c_h k) (c_h k') (doomed (c_h k) o (map vf_obj (h_vfns (c_h k)))) /\
    mans_less o (map vf_obj (h_vfns (c_h k))) (c_h k) (c_h k').
Proof.
  intros m0 k o m W Gm. unfold remove_hookman. set (l := map vf_obj (h_vfns (c_h k))).
  destruct (rm_loop_ok m0 o l k m W) as (k1 & E1 & W1 & K1 & R1 & L1); auto.
  { apply (wm_vobj m0 _ (wf_m m0 k W)). }
  { intros vo Hvo. apply in_map_iff in Hvo. destruct Hvo as (v & Ev & Hv). exists v. rewrite <- Ev.
    apply get_vfn_in; auto. apply (wm_vobj m0 _ (wf_m m0 k W)). }
  rewrite E1. set (k' := Core _ _ _). exists k'. split; [reflexivity|].
  assert (Hn : forall v, In v (h_vfns (c_h k1)) -> ~ In o (vf_mans v)).
  { intros v Hv. apply L1 in Hv. destruct Hv as (w & Hw & _ & ->).
    assert (Hl : memb (vf_obj w) l = true) by (apply memb_in; apply in_map; exact Hw). rewrite Hl. cbn [vf_mans set_vf_mans].
    rewrite in_del_nat by (apply (wm_nd m0 _ (wf_m m0 k W) w Hw)). tauto. }
  pose proof (wf_m m0 k1 W1) as M1.
  assert (W' : WF m0 k').
  { constructor; cbn [c_h c_tasks k'].
    - apply WM_erase_man; auto.
    - apply (WH_ext (c_h k1)); auto. apply (wf_h m0 k1 W1).
    - exact (wf_n m0 k1 W1).
    - exact (WT_ext (c_h k1) (c_h k') (c_tasks k1) (wf_t m0 k1 W1) eq_refl eq_refl (le_n _)). }
  split; [exact W'|]. split; [|split; [|split]].
  - intros x. cbn [c_h k']. unfold get_man at 1. cbn [h_mans set_mans]. rewrite find_del_man by (apply (wm_mobj m0 _ M1)).
    destruct (x =? o); [reflexivity|]. fold (get_man (c_h k1) x).
    pose proof (mkey4_get (h_mans (c_h k)) (h_mans (c_h k1)) x K1) as G. unfold get_man.
    destruct (find (man_is x) (h_mans (c_h k1))), (find (man_is x) (h_mans (c_h k))); cbn [option_map]; try tauto. congruence.
  - cbn [c_h k' h_mans set_mans]. rewrite <- K1. apply map_del_first. intros y. reflexivity.
  - pose proof (erase_man_mstep m0 (c_h k1) o M1 Hn) as S2. destruct R1 as [A1 A2 A3 A4 A5 A6 A7].
    constructor; auto. eapply mstep_trans; [exact A7|exact S2].
  - exact L1.
Qed.

(** ** Ownership: the plugin of every hook has a manager on the hook's slot *)
Definition owned (h : hs) : Prop :=
  forall s a p x, hook_at h s a p x ->
    exists v mo, In v (h_vfns h) /\ vf_ptr v = s /\ In mo (vf_mans v) /\ man_plug h mo = Some (hk_plug x).

Lemma get_key_plug : forall h h' x, option_map mkey4 (get_man h' x) = option_map mkey4 (get_man h x) ->
  man_plug h' x = man_plug h x /\ man_pf h' x = man_pf h x.
Proof.
  intros h h' x E. unfold man_plug, man_pf. destruct (get_man h' x) as [a|], (get_man h x) as [b|]; cbn [option_map] in *; try discriminate; auto.
  injection E as E1 E2 E3. rewrite E2, E3. auto.
Qed.

(** Removing a manager of a plugin without hooks on the slots that list it
    takes no hook away. *)
Lemma owned_not_doomed : forall h o l m, WH h -> owned h -> get_man h o = Some m ->
  (forall v i p x, In v (h_vfns h) -> In o (vf_mans v) -> In i (vf_ifaces v) -> In x (hooks_of p i) -> hk_plug x <> mn_plug m) ->
  forall id, doomed h o l id = false.
Proof.
  intros h o l m W Ow Gm Hn id. destruct (query_hook (h_ids h) id) as [e|] eqn:Q; [|apply doomed_none; exact Q].
  apply not_true_iff_false. rewrite (doomed_spec h o l id e Q). intros (v & Hv & _ & Ep & Em).
  destruct (wh_hook h W id e Q) as (x & Hx & _). rewrite <- Ep in Hx.
  destruct (Ow _ _ _ _ Hx) as (w & mo & W1 & W2 & W3 & W4).
  assert (w = v) by (apply (nodup_key_inj vf_ptr (h_vfns h)); auto; apply (wh_vptr h W)). subst w.
  rewrite Em in W3. destruct W3 as [<-|[]]. unfold man_plug in W4. rewrite Gm in W4. injection W4 as W4.
  destruct (hook_at_vfn h v _ _ _ _ W Hv eq_refl Hx) as (i & Hi & _ & Hk).
  apply (Hn v i (en_post e) x); auto. rewrite Em. left. reflexivity.
Qed.

Lemma owned_removed : forall m0 k k' o m D, WF m0 k -> owned (c_h k) -> get_man (c_h k) o = Some m ->
  (forall v i p x, In v (h_vfns (c_h k)) -> In o (vf_mans v) -> In i (vf_ifaces v) -> In x (hooks_of p i) -> hk_plug x <> mn_plug m) ->
  (forall x, option_map mkey4 (get_man (c_h k') x) = if x =? o then None else option_map mkey4 (get_man (c_h k) x)) ->
  removed (c_h k) (c_h k') D -> mans_less o (map vf_obj (h_vfns (c_h k))) (c_h k) (c_h k') -> owned (c_h k').
Proof.
  intros m0 k k' o m D W Ow Gm Hn K R L s a p x Hx. apply (rv_hooks _ _ _ R) in Hx. destruct Hx as [Hx _].
  destruct (Ow _ _ _ _ Hx) as (v & mo & V1 & V2 & V3 & V4).
  destruct (hook_at_vfn _ v _ _ _ _ (wf_h m0 k W) V1 V2 Hx) as (i & Hi & _ & Hk).
  assert (Hmo : mo <> o).
  { intros ->. apply (Hn v i p x V1 V3 Hi Hk). unfold man_plug in V4. rewrite Gm in V4. cbn in V4. congruence. }
  assert (Ml : memb (vf_obj v) (map vf_obj (h_vfns (c_h k))) = true) by (apply memb_in; apply in_map; exact V1).
  exists (set_vf_mans (del_first (Nat.eqb o) (vf_mans v)) v), mo. split.
  - apply L. exists v. split; auto. split.
    + intros _ C. rewrite C in V3. destruct V3 as [C1|[]]. auto.
    + rewrite Ml. reflexivity.
  - split; [exact V2|]. split.
    + cbn [vf_mans set_vf_mans]. apply in_del_nat; [apply (wm_nd m0 _ (wf_m m0 k W) v V1)|]. auto.
    + pose proof (K mo) as Km. apply Nat.eqb_neq in Hmo. rewrite Hmo in Km. destruct (get_key_plug _ _ _ Km) as [E _]. rewrite E. exact V4.
Qed.

Lemma owned_rem : forall m0 k k' D, WF m0 k -> WF m0 k' -> removed (c_h k) (c_h k') D ->
  map mkey4 (h_mans (c_h k')) = map mkey4 (h_mans (c_h k)) ->
  (forall w', In w' (h_vfns (c_h k')) -> exists w, In w (h_vfns (c_h k)) /\ vf_ptr w = vf_ptr w' /\ vf_mans w = vf_mans w') ->
  owned (c_h k) -> owned (c_h k').
Proof.
  intros m0 k k' D W W' R K V Ow s a p x Hx. pose proof Hx as (w' & i & A1 & A2 & _).
  destruct (V w' A1) as (w & B1 & B2 & B3).
  apply (rv_hooks _ _ _ R) in Hx. destruct Hx as [Hx _]. destruct (Ow _ _ _ _ Hx) as (v & mo & C1 & C2 & C3 & C4).
  assert (v = w) by (apply (nodup_key_inj vf_ptr (h_vfns (c_h k))); auto; [apply (wh_vptr _ (wf_h m0 k W))|congruence]). subst v.
  exists w', mo. split; auto. split; auto. split; [congruence|]. rewrite (mu_plug _ _ mo K). exact C4.
Qed.

(** Removal by id leaves the manager lists alone. *)
Lemma remove_by_id_mans : forall m0 k id k' b, WF m0 k -> remove_by_id k id = Some (k', b) ->
  forall w', In w' (h_vfns (c_h k')) ->
    exists w, In w (h_vfns (c_h k)) /\ vf_obj w = vf_obj w' /\ vf_ptr w = vf_ptr w' /\ vf_mans w = vf_mans w'.
Proof.
  intros m0 k id k' b W E w' Hw. destruct (query_hook (h_ids (c_h k)) id) as [e|] eqn:Q.
  - destruct (remove_by_id_ok m0 k id e W Q) as (v & i & hk & k1 & Lc & E1 & W1 & R & K & Sh).
    rewrite E1 in E. injection E as -> _.
    pose proof (wh_vobj _ (wf_h m0 k W)) as Nv.
    destruct Sh as [(_ & _ & _ & F)|[(_ & _ & _ & _ & F)|(_ & _ & F & _)]]; rewrite F in Hw.
    + rewrite (in_upd_first _ vf_obj (vf_obj v)) in Hw by auto using sel_vfn_is.
      destruct Hw as [[Hw _]|(x & Hx & _ & ->)]; [exists w'; auto|exists x; auto].
    + rewrite (in_upd_first _ vf_obj (vf_obj v)) in Hw by auto using sel_vfn_is.
      destruct Hw as [[Hw _]|(x & Hx & _ & ->)]; [exists w'; auto|exists x; auto].
    + apply in_del_first_weak in Hw. exists w'. auto.
  - rewrite (remove_by_id_none k id Q) in E. injection E as <- _. exists w'. auto.
Qed.

Lemma remove_ids_mans : forall m0 l k k' b, WF m0 k -> remove_ids k l = Some (k', b) ->
  forall w', In w' (h_vfns (c_h k')) ->
    exists w, In w (h_vfns (c_h k)) /\ vf_obj w = vf_obj w' /\ vf_ptr w = vf_ptr w' /\ vf_mans w = vf_mans w'.
Proof.
  intros m0 l. induction l as [|id l IH]; intros k k' b W E w' Hw; cbn [remove_ids] in E.
  - injection E as <- _. exists w'. auto.
  - destruct (remove_by_id k id) as [[k1 b1]|] eqn:E1; [|discriminate].
    assert (W1 : WF m0 k1).
    { destruct (remove_ids_ok m0 [id] k W) as (k2 & b2 & E2 & W2 & _). cbn [remove_ids] in E2. rewrite E1 in E2.
      injection E2 as <- _. exact W2. }
    destruct (remove_ids k1 l) as [[k2 b2]|] eqn:E2; [|discriminate]. injection E as <- _.
    destruct (IH k1 k2 b2 W1 E2 w' Hw) as (w1 & A1 & A2 & A3 & A4).
    destruct (remove_by_id_mans m0 k id k1 b1 W E1 w1 A1) as (w & B1 & B2 & B3 & B4).
    exists w. split; [exact B1|]. split; [congruence|]. split; congruence.
Qed.

(** ** All managers of a plugin *)
Lemma remove_hookmans_ok : forall m0 plug l k, WF m0 k -> NoDup l ->
  (forall o, In o l -> exists m, get_man (c_h k) o = Some m) ->
  exists k' D, remove_hookmans k plug l = Some k' /\ WF m0 k' /\ removed (c_h k) (c_h k') D /\
    (forall x, option_map mkey4 (get_man (c_h k') x) =
               match get_man (c_h k) x with
               | Some m => if memb x l && Z.eqb (mn_plug m) plug then None else Some (mkey4 m)
               | None => None
               end) /\
    (owned (c_h k) -> (forall s a p x, hook_at (c_h k) s a p x -> hk_plug x <> plug) ->
     owned (c_h k') /\ forall id, D id = false) /\
    (forall w', In w' (h_vfns (c_h k')) -> exists w, In w (h_vfns (c_h k)) /\ vf_obj w' = vf_obj w /\ vf_ptr w' = vf_ptr w /\
       vf_ifaces w' = vf_ifaces w /\
       vf_mans w' = filter (fun o => negb (memb o l && match man_plug (c_h k) o with Some p => Z.eqb p plug | None => false end)) (vf_mans w)).
Proof.
  intros m0 plug l. induction l as [|o l IH]; intros k W Nd Hl.
  - exists k, (fun _ => false). split; [reflexivity|]. split; [exact W|]. split; [apply removed_refl|]. split; [|split].
    + intros x. destruct (get_man (c_h k) x); reflexivity.
    + intros A _. auto.
    + intros w Hw. exists w. split; auto. split; [reflexivity|]. split; [reflexivity|]. split; [reflexivity|].
      induction (vf_mans w) as [|a r IHr]; [reflexivity|]. cbn [filter memb existsb andb negb] in *. congruence.
  - inversion Nd as [|? ? No Nd']; subst. destruct (Hl o (or_introl eq_refl)) as (m & Gm).
    cbn [remove_hookmans]. rewrite Gm. destruct (Z.eqb (mn_plug m) plug) eqn:Ep.
    + destruct (remove_hookman_ok m0 k o m W Gm) as (k1 & E1 & W1 & K1 & _ & R1 & L1). rewrite E1.
      destruct (IH k1 W1 Nd') as (k2 & D2 & E2 & W2 & R2 & K2 & O2 & V2).
      { intros x Hx. destruct (Hl x (or_intror Hx)) as (mx & Gx). pose proof (K1 x) as Kx.
        destruct (x =? o) eqn:Exo; [apply Nat.eqb_eq in Exo; subst x; contradiction|]. rewrite Gx in Kx.
        destruct (get_man (c_h k1) x) as [m'|]; [eauto|discriminate]. }
      exists k2, (fun x => doomed (c_h k) o (map vf_obj (h_vfns (c_h k))) x || D2 x).
      split; [exact E2|]. split; [exact W2|]. split; [apply (removed_trans _ _ _ _ _ R1 R2)|]. split; [|split].
      * intros x. rewrite K2. pose proof (K1 x) as Kx. cbn [memb existsb]. fold (memb x l). destruct (x =? o) eqn:Exo.
        { apply Nat.eqb_eq in Exo. subst x. rewrite Gm. cbn [orb andb]. rewrite Ep.
          destruct (get_man (c_h k1) o); [discriminate|reflexivity]. }
        { cbn [orb]. destruct (get_man (c_h k1) x) as [m1|], (get_man (c_h k) x) as [m2|]; cbn [option_map] in Kx; try discriminate; auto.
          injection Kx as Kx1 Kx2 Kx3 Kx4. rewrite Kx2. unfold mkey4. rewrite Kx1, Kx2, Kx3, Kx4. reflexivity. }
      * intros Ow Hn. apply Z.eqb_eq in Ep.
        assert (Hn' : forall v i p x, In v (h_vfns (c_h k)) -> In o (vf_mans v) -> In i (vf_ifaces v) -> In x (hooks_of p i) -> hk_plug x <> mn_plug m).
        { intros v i p x A1 _ A3 A4. rewrite Ep. apply (Hn (vf_ptr v) (if_ptr i) p). exists v, i. auto. }
        pose proof (owned_not_doomed _ o (map vf_obj (h_vfns (c_h k))) m (wf_h m0 k W) Ow Gm Hn') as Nd1.
        destruct O2 as [O2 D0].
        { apply (owned_removed m0 k k1 o m _ W Ow Gm Hn' K1 R1 L1). }
        { intros s a p x Hx. apply (rv_hooks _ _ _ R1) in Hx. apply (Hn s a p). tauto. }
        split; [exact O2|]. intros id. rewrite Nd1, D0. reflexivity.
      * intros w' Hw'. destruct (V2 w' Hw') as (w1 & A1 & A2 & A3 & A4 & A5). apply L1 in A1. destruct A1 as (w & B1 & B2 & B3).
        assert (Ml : memb (vf_obj w) (map vf_obj (h_vfns (c_h k))) = true) by (apply memb_in; apply in_map; exact B1).
        rewrite Ml in B3. exists w. split; [exact B1|]. subst w1. split; [exact A2|]. split; [exact A3|]. split; [exact A4|].
        rewrite A5. cbn [vf_mans set_vf_mans].
        assert (Ref : forall x, In x (vf_mans w) -> exists mx, get_man (c_h k) x = Some mx) by (intros x; apply (wm_ref m0 _ (wf_m m0 k W) w x B1)).
        pose proof (wm_nd m0 _ (wf_m m0 k W) w B1) as Ndw. clear A5 B2 A2 A3 A4.
        assert (Eo : memb o (o :: l) && match man_plug (c_h k) o with Some p => Z.eqb p plug | None => false end = true).
        { unfold man_plug. rewrite Gm. cbn [option_map]. rewrite Ep, andb_true_r. apply memb_in. left. reflexivity. }
        assert (Ex : forall x, x <> o -> memb x l && match man_plug (c_h k1) x with Some p => Z.eqb p plug | None => false end =
                                      memb x (o :: l) && match man_plug (c_h k) x with Some p => Z.eqb p plug | None => false end).
        { intros x Nx. pose proof (K1 x) as Kx. apply Nat.eqb_neq in Nx. rewrite Nx in Kx. destruct (get_key_plug _ _ _ Kx) as [-> _].
          cbn [memb existsb]. rewrite Nx. reflexivity. }
        assert (NF : forall r, ~ In o r -> filter (fun x => negb (memb x l && match man_plug (c_h k1) x with Some p => Z.eqb p plug | None => false end)) r =
                     filter (fun x => negb (memb x (o :: l) && match man_plug (c_h k) x with Some p => Z.eqb p plug | None => false end)) r).
        { induction r as [|b r IHr]; intros Hb; [reflexivity|]. cbn [filter].
          rewrite (Ex b) by (intros ->; apply Hb; left; reflexivity). rewrite IHr by (intros C; apply Hb; right; exact C). reflexivity. }
        clear Ref. induction (vf_mans w) as [|a r IHr]; [reflexivity|]. inversion Ndw as [|? ? Na Ndr]; subst. cbn [del_first].
        destruct (o =? a) eqn:Ea.
        { apply Nat.eqb_eq in Ea. subst a. cbn [filter]. rewrite Eo. cbn [negb]. apply NF. exact Na. }
        { apply Nat.eqb_neq in Ea. cbn [filter]. rewrite (Ex a) by auto. rewrite IHr; auto. }
    + destruct (IH k W Nd') as (k2 & D2 & E2 & W2 & R2 & K2 & O2 & V2); [intros x Hx; apply Hl; right; exact Hx|].
      exists k2, D2. split; [exact E2|]. split; [exact W2|]. split; [exact R2|]. split; [|split].
      * intros x. rewrite K2. destruct (get_man (c_h k) x) as [mx|] eqn:Gx; [|reflexivity]. cbn [memb existsb]. fold (memb x l).
        destruct (x =? o) eqn:Exo; [|reflexivity]. apply Nat.eqb_eq in Exo. subst x. rewrite Gm in Gx. injection Gx as <-.
        rewrite Ep, !andb_false_r. reflexivity.
      * exact O2.
      * intros w' Hw'. destruct (V2 w' Hw') as (w & A1 & A2 & A3 & A4 & A5). exists w. split; [exact A1|]. split; [exact A2|]. split; [exact A3|]. split; [exact A4|].
        rewrite A5. apply filter_ext. intros x. cbn [memb existsb]. fold (memb x l). destruct (x =? o) eqn:Exo; [|reflexivity].
        apply Nat.eqb_eq in Exo. subst x. unfold man_plug. rewrite Gm. cbn [option_map]. rewrite Ep, !andb_false_r. reflexivity.
Qed.

(** ** UnloadPlugin *)
Theorem unload_hooks_ok : forall m0 k plug, WF m0 k ->
  exists k' D, unload_hooks k plug = Some k' /\ WF m0 k' /\ removed (c_h k) (c_h k') D /\
    (forall id e, query_hook (h_ids (c_h k)) id = Some e -> en_plug e = plug -> D id = true) /\
    (forall m, In m (h_mans (c_h k')) -> mn_plug m <> plug) /\
    (forall x, option_map mkey4 (get_man (c_h k') x) =
               match get_man (c_h k) x with
               | Some m => if Z.eqb (mn_plug m) plug then None else Some (mkey4 m)
               | None => None
               end) /\
    (owned (c_h k) -> owned (c_h k') /\
       forall id e, query_hook (h_ids (c_h k)) id = Some e -> (D id = true <-> en_plug e = plug)) /\
    (forall w', In w' (h_vfns (c_h k')) -> exists w, In w (h_vfns (c_h k)) /\ vf_obj w' = vf_obj w /\ vf_ptr w' = vf_ptr w /\
       vf_mans w' = filter (fun o => negb (match man_plug (c_h k) o with Some p => Z.eqb p plug | None => false end)) (vf_mans w)).
Proof.
  intros m0 k plug W. unfold unload_hooks. set (l := find_ids (fun e => Z.eqb (en_plug e) plug) (h_ids (c_h k)) 0).
  destruct (remove_ids_ok m0 l k W) as (k1 & b & E1 & W1 & R1 & K1 & _). rewrite E1.
  assert (Hl : forall id e, query_hook (h_ids (c_h k)) id = Some e -> (zmemb id l = true <-> en_plug e = plug)).
  { intros id e Q. rewrite zmemb_in. unfold l. rewrite find_ids_query. split.
    - intros (e' & Q' & P). apply Z.eqb_eq in P. congruence.
    - intros P. exists e. split; auto. apply Z.eqb_eq. exact P. }
  destruct (remove_hookmans_ok m0 plug (map mn_obj (h_mans (c_h k1))) k1 W1) as (k2 & D2 & E2 & W2 & R2 & K2 & O2 & V2).
  { apply (wm_mobj m0 _ (wf_m m0 k1 W1)). }
  { intros o Ho. apply in_map_iff in Ho. destruct Ho as (m & Em & Hm). exists m. rewrite <- Em. apply get_man_in; auto.
    apply (wm_mobj m0 _ (wf_m m0 k1 W1)). }
  assert (Mem : forall x m, get_man (c_h k1) x = Some m -> memb x (map mn_obj (h_mans (c_h k1))) = true).
  { intros x m G. apply memb_in. destruct (get_man_obj _ _ _ G) as [G1 G2]. rewrite <- G2. apply in_map. exact G1. }
  exists k2, (fun x => zmemb x l || D2 x). split; [exact E2|]. split; [exact W2|].
  split; [apply (removed_trans _ _ _ _ _ R1 R2)|]. split; [|split; [|split; [|split]]].
  - intros id e Q P. apply (Hl id e Q) in P. rewrite P. reflexivity.
  - intros m Hm C. pose proof (get_man_in _ m (wm_mobj m0 _ (wf_m m0 k2 W2)) Hm) as G. pose proof (K2 (mn_obj m)) as Kx. rewrite G in Kx.
    destruct (get_man (c_h k1) (mn_obj m)) as [m1|] eqn:G1; [|discriminate]. rewrite (Mem _ _ G1) in Kx. cbn [andb option_map] in Kx.
    destruct (Z.eqb (mn_plug m1) plug) eqn:E; [discriminate|]. apply Z.eqb_neq in E. injection Kx as _ Kp _ _. congruence.
  - intros x. rewrite K2. pose proof (mkey4_get (h_mans (c_h k)) (h_mans (c_h k1)) x K1) as G.
    fold (get_man (c_h k) x) in G. fold (get_man (c_h k1) x) in G.
    destruct (get_man (c_h k1) x) as [m1|] eqn:G1, (get_man (c_h k) x) as [m2|] eqn:G2; try contradiction; [|reflexivity].
    rewrite (Mem _ _ G1). cbn [andb]. unfold mkey4 in *. injection G as Ga Gb Gc Gd. rewrite Ga, Gb, Gc, Gd. reflexivity.
  - intros Ow.
    assert (Ow1 : owned (c_h k1)).
    { apply (owned_rem m0 k k1 _ W W1 R1 K1); auto. intros w' Hw'.
      destruct (remove_ids_mans m0 l k k1 b W E1 w' Hw') as (w & A1 & A2 & A3 & A4). exists w. auto. }
    destruct (O2 Ow1) as [O3 D0].
    { intros s a p x Hx C. apply (rv_hooks _ _ _ R1) in Hx. destruct Hx as [Hx Hd].
      destruct (wh_entry _ (wf_h m0 k W) _ _ _ _ Hx) as (e & Q & F). destruct F as (_ & _ & _ & F & _).
      assert (T : zmemb (hk_id x) l = true) by (apply (Hl _ e Q); congruence). congruence. }
    split; [exact O3|]. intros id e Q. rewrite D0, orb_false_r. apply (Hl id e Q).
  - intros w' Hw'. destruct (V2 w' Hw') as (w1 & A1 & A2 & A3 & A4 & A5).
    destruct (remove_ids_mans m0 l k k1 b W E1 w1 A1) as (w & B1 & B2 & B3 & B4).
    exists w. split; [exact B1|]. split; [congruence|]. split; [congruence|]. rewrite A5, <- B4. apply filter_ext_in. intros x Hx. f_equal.
    rewrite (mu_plug _ _ x K1). destruct (wm_ref m0 _ (wf_m m0 k W) w x B1) as (mx & Gx); [exact Hx|].
    destruct (key_get_ex _ _ x mx K1 Gx) as (m1 & G1 & _). rewrite (Mem _ _ G1). reflexivity.
Qed.

(** ** CompleteShutdown *)
Theorem complete_shutdown_ok : forall m0 k, WF m0 k ->
  exists k' D, complete_shutdown k = Some k' /\ WF m0 k' /\ removed (c_h k) (c_h k') D /\
    (forall id e, query_hook (h_ids (c_h k)) id = Some e -> D id = true) /\
    map mkey4 (h_mans (c_h k')) = map mkey4 (h_mans (c_h k)) /\
    (forall w', In w' (h_vfns (c_h k')) -> exists w, In w (h_vfns (c_h k)) /\ vf_obj w = vf_obj w' /\ vf_ptr w = vf_ptr w' /\ vf_mans w = vf_mans w').
Proof.
  intros m0 k W. unfold complete_shutdown. set (l := find_ids (fun _ => true) (h_ids (c_h k)) 0).
  destruct (remove_ids_ok m0 l k W) as (k1 & b & E1 & W1 & R1 & K1 & _). rewrite E1.
  exists k1, (fun x => zmemb x l). split; [reflexivity|]. split; [exact W1|]. split; [exact R1|]. split; [|split; [exact K1|]].
  - intros id e Q. apply zmemb_in. unfold l. apply find_ids_query. eauto.
  - apply (remove_ids_mans m0 l k k1 b W E1).
Qed.
