(** The API functions under running activations. *)
From Coq Require Import List Bool Arith ZArith Lia Sorted.
From Verif Require Import ProtoModel ShModel ShRun ShLists ShInv ShMan ShHooks ShAdd ShRem ShApi ShUnload ShHist ShGood ShSpec ShView ShAbs ShFrames ShRel ShCalls ShMoves ShOwned.
Import ListNotations.
Local Open Scope nat_scope.

(** What is hooked, in terms of hooks. *)
Lemma hooked_at : forall h s, WN h -> (hookedb h s = true <-> exists a p k, hook_at h s a p k).
Proof.
  intros h s N. rewrite hookedb_spec. split.
  - intros (v & Hv & E). destruct (N v Hv) as (_ & N2 & N3). destruct (vf_ifaces v) as [|i l] eqn:Ei; [congruence|].
    assert (Hi : In i (i :: l)) by (left; reflexivity). specialize (N3 i Hi). destruct (if_pre i) as [|k ks] eqn:Ep.
    + destruct (if_post i) as [|k ks] eqn:Eq; [cbn in N3; congruence|]. exists (if_ptr i), true, k. exists v, i. rewrite Ei. cbn [hooks_of]. rewrite Eq. cbn. auto 10.
    + exists (if_ptr i), false, k. exists v, i. rewrite Ei. cbn [hooks_of]. rewrite Ep. cbn. auto 10.
  - intros (a & p & k & v & i & A & B & _). exists v. auto.
Qed.
Lemma present_at : forall h s a, WH h -> (presentb h s a = true <-> exists p k, hook_at h s a p k).
Proof.
  intros h s a W. unfold presentb. split.
  - intros H. destruct (installed h s a false ++ installed h s a true) as [|k l] eqn:E; [discriminate|].
    assert (Hk : In k (installed h s a false ++ installed h s a true)) by (rewrite E; left; reflexivity).
    apply in_app_or in Hk. destruct Hk as [Hk|Hk]; [exists false|exists true]; exists k; apply in_installed; auto.
  - intros (p & k & H). apply in_installed in H; auto.
    assert (Hk : In k (installed h s a false ++ installed h s a true)) by (apply in_or_app; destruct p; auto).
    destruct (installed h s a false ++ installed h s a true); [destruct Hk|reflexivity].
Qed.

(** ... only less than before *)
Definition shrinks (h h' : hs) : Prop :=
  (forall s, hookedb h' s = true -> hookedb h s = true) /\ (forall s a, presentb h' s a = true -> presentb h s a = true).
Lemma removed_shrinks : forall h h' D, WH h -> WN h -> WH h' -> WN h' -> removed h h' D -> shrinks h h'.
Proof.
  intros h h' D W N W' N' R. split.
  - intros s H. apply (hooked_at _ _ N') in H. destruct H as (a & p & k & H). apply (rv_hooks _ _ _ R) in H. apply (hooked_at _ _ N).
    exists a, p, k. apply H.
  - intros s a H. apply (present_at _ _ _ W') in H. destruct H as (p & k & H). apply (rv_hooks _ _ _ R) in H. apply (present_at _ _ _ W).
    exists p, k. apply H.
Qed.
Lemma refresh_shrinks : forall h h' A, shrinks h h' -> map (refresh h') (map (refresh h) A) = map (refresh h') A.
Proof.
  intros h h' A [S1 S2]. rewrite map_map. apply map_ext. intros [i af ig [a|]]; [|reflexivity]. unfold refresh, a_refresh; cbn.
  do 3 f_equal.
  - specialize (S1 (a_slot a)). destruct (a_alive a), (hookedb h (a_slot a)), (hookedb h' (a_slot a)); cbn; auto;
    specialize (S1 eq_refl); discriminate.
  - specialize (S2 (a_slot a) (a_this a)). destruct (a_seen a), (presentb h (a_slot a) (a_this a)), (presentb h' (a_slot a) (a_this a)); cbn; auto;
    specialize (S2 eq_refl); discriminate.
Qed.

(** An API call whose effect on the contexts is the abstract one. *)
Definition follows (ok : ahook -> Prop) (k k' : core) : Prop :=
  cs_ok (c_cs k) -> h_thunks (c_h k) = [] ->
  cs_ok (c_cs k') /\ h_thunks (c_h k') = [] /\ length (stk (c_cs k')) = length (stk (c_cs k)) /\
  forall vs fr A, rel (c_h k) vs false fr (stk (c_cs k)) A ->
    (forall f a, In f A -> af_hook f = Some a -> a_alive a = true -> ok a) ->
    rel (c_h k') vs false fr (stk (c_cs k')) (map (refresh (c_h k')) A).

Lemma no_thunks : forall h ts, WT h ts -> (h_thunks h = [] <-> vfn_thunks h = [] /\ map snd ts = []).
Proof.
  intros h ts T. split.
  - intros E. pose proof (wt_live h ts T) as L. rewrite E in L. cbn [In] in L.
    destruct (vfn_thunks h ++ map snd ts) as [|x l] eqn:X; [apply app_eq_nil in X; exact X|]. exfalso. apply (L x). left. reflexivity.
  - intros [E1 E2]. pose proof (wt_live h ts T) as L. rewrite E1, E2 in L. cbn [In app] in L. destruct (h_thunks h) as [|x l]; [reflexivity|].
    exfalso. apply (L x). left. reflexivity.
Qed.
Lemma vfn_thunks_nil : forall h, vfn_thunks h = [] <-> forall v, In v (h_vfns h) -> vf_thunk v = None.
Proof.
  intros h. unfold vfn_thunks. split.
  - intros E v Hv. destruct (vf_thunk v) as [t|] eqn:X; [|reflexivity]. exfalso.
    assert (H : In t (flat_map (fun v => match vf_thunk v with Some t => [t] | None => [] end) (h_vfns h))).
    { apply in_flat_map. exists v. rewrite X. split; [exact Hv|left; reflexivity]. }
    rewrite E in H. destruct H.
  - intros H. induction (h_vfns h) as [|v l IH]; [reflexivity|]. cbn [flat_map]. rewrite (H v (or_introl eq_refl)). apply IH.
    intros w Hw. apply H. right. exact Hw.
Qed.

Lemma follows_moves : forall m0 k k' g ok, WF m0 k -> WF m0 k' -> moves (c_h k) (c_h k') g ok ->
  (cs_ok (c_cs k) -> cs_ok (c_cs k') /\ stk (c_cs k') = map g (stk (c_cs k))) ->
  (h_thunks (c_h k) = [] -> h_thunks (c_h k') = []) -> follows ok k k'.
Proof.
  intros m0 k k' g ok F F' M S T O Th. destruct (S O) as [O' S']. split; [exact O'|]. split; [auto|]. split; [rewrite S'; apply map_length|].
  intros vs fr A R Ok. rewrite S'. apply (rel_moves (c_h k) (c_h k') g ok); auto. apply (wf_h m0 _ F').
Qed.
Lemma follows_same : forall m0 k k', WF m0 k -> WF m0 k' ->
  (forall v, In v (h_vfns (c_h k)) -> exists v', In v' (h_vfns (c_h k')) /\ vsk v' = vsk v) -> h_nxt (c_h k) <= h_nxt (c_h k') ->
  c_cs k' = c_cs k -> (h_thunks (c_h k) = [] -> h_thunks (c_h k') = []) -> follows (fun _ => True) k k'.
Proof.
  intros m0 k k' F F' V Nx Ec Et. apply (follows_moves m0 k k' (fun c => c)); auto.
  - apply moves_same; auto; [apply (wf_h m0 _ F)|apply (wf_h m0 _ F')|apply (wf_n m0 _ F')].
  - intros O. rewrite Ec, map_id. auto.
Qed.
Lemma follows_refl : forall m0 k, WF m0 k -> follows (fun _ => True) k k.
Proof. intros m0 k F. apply (follows_same m0); auto. intros v Hv. exists v. auto. Qed.
Lemma follows_trans : forall ok a b c, follows ok a b -> follows (fun _ => True) b c -> shrinks (c_h b) (c_h c) -> follows ok a c.
Proof.
  intros ok a b c F1 F2 S O T. destruct (F1 O T) as (O1 & T1 & L1 & R1). destruct (F2 O1 T1) as (O2 & T2 & L2 & R2).
  split; [exact O2|]. split; [exact T2|]. split; [congruence|]. intros vs fr A R Ok. rewrite <- (refresh_shrinks _ _ A S). apply R2; auto.
Qed.

(** *** Removing hooks *)
Lemma rem_vfn_thunks : forall k k' id e v i hk, NoDup (map vf_obj (h_vfns (c_h k))) -> In v (h_vfns (c_h k)) -> rem_shape k k' id e v i hk ->
  forall w', In w' (h_vfns (c_h k')) -> exists w, In w (h_vfns (c_h k)) /\ vf_thunk w' = vf_thunk w.
Proof.
  intros k k' id e v i hk Nd Hv Sh w' Hw'. destruct Sh as [(_ & _ & _ & Ev)|[(_ & _ & _ & _ & Ev)|(_ & _ & Ev & _)]]; rewrite Ev in Hw'.
  - apply (in_upd_first _ vf_obj (vf_obj v)) in Hw'; auto using sel_vfn_is. destruct Hw' as [[H _]|(x & Hx & Ex & ->)]; eauto.
  - apply (in_upd_first _ vf_obj (vf_obj v)) in Hw'; auto using sel_vfn_is. destruct Hw' as [[H _]|(x & Hx & Ex & ->)]; eauto.
  - apply in_del_first_weak in Hw'. eauto.
Qed.

Lemma remove_by_id_follows : forall m0 k id k' b, WF m0 k -> remove_by_id k id = Some (k', b) ->
  follows (fun _ => True) k k'.
Proof.
  intros m0 k id k' b F E. destruct (query_hook (h_ids (c_h k)) id) as [e|] eqn:Q.
  - destruct (remove_by_id_ok m0 k id e F Q) as (v & i & hk & k1 & Lc & E1 & F1 & R1 & _ & Sh).
    assert (k1 = k') by congruence. subst k1. intros O Th.
    pose proof (proj1 (no_thunks _ _ (wf_t m0 _ F)) Th) as [V0 T0]. rewrite vfn_thunks_nil in V0.
    pose proof Lc as (_ & _ & _ & _ & Hv & _).
    destruct (moves_remove m0 k k' id e v i hk F F1 Lc Sh (V0 v Hv) (rv_nxt _ _ _ R1) O) as (g & M & O1 & S1 & T1).
    apply (follows_moves m0 k k' g); auto. intros _. apply (no_thunks _ _ (wf_t m0 _ F1)). split; [|rewrite T1; exact T0].
    apply vfn_thunks_nil. intros w' Hw'. destruct (rem_vfn_thunks k k' id e v i hk (wh_vobj _ (wf_h m0 _ F)) Hv Sh w' Hw') as (w & Hw & ->).
    apply V0. exact Hw.
  - rewrite (remove_by_id_none k id Q) in E. injection E as <- _. apply (follows_refl m0). exact F.
Qed.

Lemma remove_ids_follows : forall m0 l k k' b, WF m0 k -> remove_ids k l = Some (k', b) -> follows (fun _ => True) k k'.
Proof.
  intros m0 l. induction l as [|id l IH]; intros k k' b F E; cbn [remove_ids] in E.
  - injection E as <- _. apply (follows_refl m0). exact F.
  - destruct (remove_ids_ok m0 [id] k F) as (k1 & b1 & E1 & F1 & R1 & _). cbn [remove_ids] in E1.
    destruct (remove_by_id k id) as [[k2 b2]|] eqn:Er; [|discriminate]. injection E1 as -> _.
    destruct (remove_ids k1 l) as [[k3 b3]|] eqn:El; [|discriminate]. injection E as <- _.
    destruct (remove_ids_ok m0 l k1 F1) as (k4 & b4 & E4 & F4 & R4 & _). assert (k4 = k3) by congruence. subst k4.
    apply (follows_trans _ k k1 k3).
    + apply (remove_by_id_follows m0 k id k1 b2 F Er).
    + apply (IH k1 k3 b3 F1 El).
    + apply (removed_shrinks _ _ _ (wf_h m0 _ F1) (wf_n m0 _ F1) (wf_h m0 _ F4) (wf_n m0 _ F4) R4).
Qed.

Lemma remove_hook_follows : forall m0 k plug ifp offs pf handler post k' b, WF m0 k -> pf_wf (c_h k) ->
  remove_hook k plug ifp offs pf handler post = Some (k', b) -> follows (fun _ => True) k k'.
Proof.
  intros m0 k plug ifp offs pf handler post k' b F P E. unfold remove_hook in E.
  destruct (h_pfs (c_h k) pf) as [info|]; [|injection E as <- _; apply (follows_refl m0); exact F].
  repeat match type of E with context [if ?x then _ else _] => destruct x end; try discriminate;
  destruct (find_ids_opt _ _ _) as [[|x l]|]; try discriminate; try (injection E as <- _; apply (follows_refl m0); exact F).
  all: apply (remove_ids_follows m0 (x :: l) k k' b F E).
Qed.

(** *** Removing managers that no hook needs *)
Lemma rm_loop_cs : forall m0 o l k k' m, WF m0 k -> NoDup l -> get_man (c_h k) o = Some m ->
  (forall v, In v (h_vfns (c_h k)) -> vf_mans v <> [o]) -> rm_hookman_loop k o l = Some k' ->
  c_cs k' = c_cs k /\ c_tasks k' = c_tasks k.
Proof.
  intros m0 o l. induction l as [|vo l IH]; intros k k' m F Nd Gm Ne E; cbn [rm_hookman_loop] in E.
  - injection E as <-. auto.
  - destruct (get_vfn (c_h k) vo) as [v|] eqn:Gv; [|discriminate]. destruct (get_vfn_obj _ _ _ Gv) as [Hv Ov].
    inversion Nd as [|? ? Nvo Nd']; subst.
    assert (Nm := Ne v Hv).
    destruct (hookman_removed_keep m0 (c_h k) v o m (wf_m m0 _ F) Hv Gm Nm) as (h1 & v' & E1 & M1 & HS1 & K1 & S1 & F1 & Ne1). rewrite E1 in E.
    set (k1 := Core h1 (c_cs k) (c_tasks k)) in *.
    destruct F as [M H N T].
    assert (W1 : WF m0 k1).
    { constructor; cbn [c_h c_tasks k1].
      - exact M1.
      - apply (WH_ext (c_h k) h1 H); try apply HS1. rewrite (hsm_nxt _ _ HS1). lia.
      - intros y Hy. rewrite F1 in Hy. rewrite (in_upd_first _ vf_obj (vf_obj v)) in Hy by (auto using sel_vfn_is; apply (wh_vobj _ H)).
        destruct Hy as [[Hy _]|(x & Hx & Ex & ->)]; [apply (N y Hy)|].
        assert (x = v) by (apply (nodup_key_inj vf_obj (h_vfns (c_h k))); auto; apply (wh_vobj _ H)). subst x.
        destruct (N v Hv) as (N1 & N2 & N3). split; [cbn; auto|]. split; [exact N2|exact N3].
      - apply (WT_ext (c_h k) h1); [exact T| | |].
        + unfold vfn_thunks. apply (thunks_vsk (h_vfns (c_h k))). apply HS1.
        + apply HS1.
        + rewrite (hsm_nxt _ _ HS1). lia. }
    destruct (key_get_ex _ h1 o m K1 Gm) as (m2 & Gm2 & _).
    destruct (IH k1 k' m2 W1 Nd' Gm2) as [C1 C2]; auto.
    intros w Hw. cbn [c_h k1] in Hw. rewrite F1 in Hw. rewrite (in_upd_first _ vf_obj (vf_obj v)) in Hw by (auto using sel_vfn_is; apply (wh_vobj _ H)).
    destruct Hw as [[Hw _]|(x & Hx & Ex & ->)]; [apply Ne; exact Hw|]. cbn [vf_mans set_vf_mans]. intros C.
    assert (Ho : In o (del_first (Nat.eqb o) (vf_mans v))) by (rewrite C; left; reflexivity).
    apply in_del_nat in Ho; [destruct Ho; congruence|]. apply (wm_nd m0 _ M v Hv).
Qed.

Lemma remove_hookman_follows : forall m0 k o m k', WF m0 k -> get_man (c_h k) o = Some m ->
  (forall v, In v (h_vfns (c_h k)) -> vf_mans v <> [o]) -> remove_hookman k o = Some k' ->
  follows (fun _ => True) k k'.
Proof.
  intros m0 k o m k' F Gm Ne E. destruct (remove_hookman_ok m0 k o m F Gm) as (k1 & E1 & F1 & _ & _ & R1 & L1).
  assert (k1 = k') by congruence. subst k1. unfold remove_hookman in E.
  destruct (rm_hookman_loop k o (map vf_obj (h_vfns (c_h k)))) as [k2|] eqn:El; [|discriminate]. injection E as E.
  destruct (rm_loop_cs m0 o _ k k2 m F (wh_vobj _ (wf_h m0 _ F)) Gm Ne El) as [C1 C2].
  assert (Cs : c_cs k' = c_cs k /\ c_tasks k' = c_tasks k) by (rewrite <- E; auto). destruct Cs as [Cs Ct].
  assert (V : forall v, In v (h_vfns (c_h k)) -> exists v', In v' (h_vfns (c_h k')) /\ vsk v' = vsk v).
  { intros v Hv. set (v' := set_vf_mans (del_first (Nat.eqb o) (vf_mans v)) v). exists v'. split; [|reflexivity]. apply L1. exists v.
    split; [exact Hv|]. split; [intros _; apply Ne; exact Hv|].
    assert (X : memb (vf_obj v) (map vf_obj (h_vfns (c_h k))) = true) by (apply memb_in; apply in_map; exact Hv). rewrite X. reflexivity. }
  apply (follows_same m0 k k'); auto; [apply (rv_nxt _ _ _ R1)|].
  intros Th. pose proof (proj1 (no_thunks _ _ (wf_t m0 _ F)) Th) as [V0 T0]. rewrite vfn_thunks_nil in V0.
  apply (no_thunks _ _ (wf_t m0 _ F1)). rewrite Ct. split; [|exact T0]. apply vfn_thunks_nil. intros w' Hw'. apply L1 in Hw'.
  destruct Hw' as (w & Hw & _ & ->). destruct (memb (vf_obj w) _); cbn [vf_thunk set_vf_mans]; apply V0; exact Hw.
Qed.

(** a manager of a plugin without hooks is nobody's only manager *)
Lemma owned_not_only : forall h o m v, WN h -> WH h -> owned h -> get_man h o = Some m -> In v (h_vfns h) ->
  (forall i p x, In i (vf_ifaces v) -> In x (hooks_of p i) -> hk_plug x <> mn_plug m) -> vf_mans v <> [o].
Proof.
  intros h o m v N W Ow Gm Hv Hn C. assert (Hb : hookedb h (vf_ptr v) = true) by (apply hookedb_spec; eauto).
  apply (hooked_at _ _ N) in Hb. destruct Hb as (a & p & x & Hx).
  destruct (hook_at_vfn _ v _ _ _ _ W Hv eq_refl Hx) as (i & Hi & _ & Hk).
  destruct (Ow _ _ _ _ Hx) as (v2 & mo & V1 & V2 & V3 & V4).
  assert (v2 = v) by apply (nodup_key_inj vf_ptr _ v2 v (wh_vptr _ W) V1 Hv V2). subst v2. rewrite C in V3. destruct V3 as [<-|[]].
  unfold man_plug in V4. rewrite Gm in V4. cbn in V4. apply (Hn i p x Hi Hk). congruence.
Qed.

Lemma remove_hookmans_follows : forall m0 plug l k k', WF m0 k -> NoDup l ->
  (forall o, In o l -> exists m, get_man (c_h k) o = Some m) -> owned (c_h k) ->
  (forall s a p x, hook_at (c_h k) s a p x -> hk_plug x <> plug) ->
  remove_hookmans k plug l = Some k' -> follows (fun _ => True) k k'.
Proof.
  intros m0 plug l. induction l as [|o l IH]; intros k k' F Nd Hl Ow Nh E; cbn [remove_hookmans] in E.
  - injection E as <-. apply (follows_refl m0). exact F.
  - destruct (Hl o (or_introl eq_refl)) as (m & Gm). rewrite Gm in E. inversion Nd as [|? ? No Nd']; subst.
    destruct (Z.eqb_spec (mn_plug m) plug) as [Ep|Ep].
    + assert (Nd1 : forall v i p x, In v (h_vfns (c_h k)) -> In i (vf_ifaces v) -> In x (hooks_of p i) -> hk_plug x <> mn_plug m).
      { intros v i p x Hv Hi Hx. rewrite Ep. apply (Nh (vf_ptr v) (if_ptr i) p x). exists v, i. auto. }
      destruct (remove_hookman_ok m0 k o m F Gm) as (k1 & E1 & F1 & G1 & _ & R1 & L1). rewrite E1 in E.
      assert (Fo : follows (fun _ => True) k k1).
      { apply (remove_hookman_follows m0 k o m k1 F Gm); auto. intros v Hv. apply (owned_not_only (c_h k) o m v (wf_n m0 _ F) (wf_h m0 _ F) Ow Gm Hv). eauto. }
      assert (Ow1 : owned (c_h k1)).
      { apply (owned_removed m0 k k1 o m (doomed (c_h k) o (map vf_obj (h_vfns (c_h k)))) F Ow Gm); auto. eauto. }
      assert (Hl1 : forall o', In o' l -> exists m', get_man (c_h k1) o' = Some m').
      { intros o' Ho'. destruct (Hl o' (or_intror Ho')) as (m' & Gm'). specialize (G1 o'). rewrite Gm' in G1.
        destruct (Nat.eqb_spec o' o) as [->|]; [contradiction|]. cbn [option_map] in G1. destruct (get_man (c_h k1) o'); [eauto|discriminate]. }
      assert (Nh1 : forall s a p x, hook_at (c_h k1) s a p x -> hk_plug x <> plug).
      { intros s a p x Hx. apply (rv_hooks _ _ _ R1) in Hx. apply (Nh s a p x). apply Hx. }
      assert (Fo2 : follows (fun _ => True) k1 k') by (apply (IH k1 k'); auto).
      destruct (remove_hookmans_ok m0 plug l k1 F1 Nd' Hl1) as (k2 & D2 & E2 & F2 & R2 & _). assert (k2 = k') by congruence. subst k2.
      apply (follows_trans _ k k1 k' Fo Fo2).
      apply (removed_shrinks _ _ _ (wf_h m0 _ F1) (wf_n m0 _ F1) (wf_h m0 _ F2) (wf_n m0 _ F2) R2).
    + apply (IH k k'); auto. intros o' Ho'. apply Hl. right. exact Ho'.
Qed.

Lemma unload_hooks_follows : forall m0 k plug k', WF m0 k -> owned (c_h k) -> unload_hooks k plug = Some k' ->
  follows (fun _ => True) k k'.
Proof.
  intros m0 k plug k' F Ow E. unfold unload_hooks in E. set (l := find_ids _ _ _) in *.
  destruct (remove_ids_ok m0 l k F) as (k1 & b1 & E1 & F1 & R1 & K1 & _). rewrite E1 in E.
  assert (Nh : forall s a p x, hook_at (c_h k1) s a p x -> hk_plug x <> plug).
  { intros s a p x Hx. apply (rv_hooks _ _ _ R1) in Hx. destruct Hx as [Hx Hd].
    destruct (wh_entry _ (wf_h m0 _ F) _ _ _ _ Hx) as (e & Q & En). intros C.
    assert (X : zmemb (hk_id x) l = true); [|congruence].
    apply zmemb_in. unfold l. apply find_ids_query. exists e. split; [exact Q|].
    destruct En as (_ & _ & _ & P & _). apply Z.eqb_eq. congruence. }
  assert (Ow1 : owned (c_h k1)).
  { apply (owned_rem m0 k k1 (fun x => zmemb x l)); auto. intros w' Hw'. destruct (remove_ids_mans m0 l k k1 b1 F E1 w' Hw') as (w & A & _ & B & C).
    exists w. auto. }
  set (ms := map mn_obj (h_mans (c_h k1))) in *.
  assert (Nd : NoDup ms) by apply (wm_mobj m0 _ (wf_m m0 _ F1)).
  assert (Hl : forall o, In o ms -> exists m, get_man (c_h k1) o = Some m).
  { intros o Ho. apply in_map_iff in Ho. destruct Ho as (m & Em & Hm). exists m. rewrite <- Em. apply get_man_in; auto. }
  apply (follows_trans _ k k1 k').
  - apply (remove_ids_follows m0 l k k1 b1 F E1).
  - apply (remove_hookmans_follows m0 plug ms k1 k'); auto.
  - destruct (remove_hookmans_ok m0 plug ms k1 F1 Nd Hl) as (k2 & D2 & E2 & F2 & R2 & _). assert (k2 = k') by congruence. subst k2.
    apply (removed_shrinks _ _ _ (wf_h m0 _ F1) (wf_n m0 _ F1) (wf_h m0 _ F2) (wf_n m0 _ F2) R2).
Qed.

Lemma shutdown_follows : forall m0 k k', WF m0 k -> complete_shutdown k = Some k' -> follows (fun _ => True) k k'.
Proof.
  intros m0 k k' F E. unfold complete_shutdown in E. destruct (remove_ids k _) as [[k1 b]|] eqn:E1; [|discriminate]. injection E as <-.
  apply (remove_ids_follows m0 _ k k1 b F E1).
Qed.

(** *** Removing a manager by its public function *)
Lemma remove_hookman_pf_follows : forall m0 k p f k', WF m0 k -> owned (c_h k) -> tidy_man (c_h k) p f ->
  remove_hookman_pf k p f = Some k' -> follows (fun _ => True) k k' /\ shrinks (c_h k) (c_h k').
Proof.
  intros m0 k p f k' W O T E. unfold remove_hookman_pf in E. destruct (find (man_key p f) (h_mans (c_h k))) as [m|] eqn:F.
  2:{ injection E as <-. split; [apply (follows_refl m0); exact W|]. split; auto. }
  assert (Gm : get_man (c_h k) (mn_obj m) = Some m).
  { apply get_man_in; [apply (wm_mobj m0 _ (wf_m m0 _ W))|apply (find_some _ _ F)]. }
  destruct (find_some _ _ F) as [_ Km]. unfold man_key in Km. apply andb_true_iff in Km. destruct Km as [Kp Kf]. apply Z.eqb_eq in Kp, Kf.
  destruct (remove_hookman_ok m0 k (mn_obj m) m W Gm) as (k1 & Er & W' & _ & _ & Rm & _). assert (k1 = k') by congruence. subst k1.
  split; [|apply (removed_shrinks _ _ _ (wf_h m0 _ W) (wf_n m0 _ W) (wf_h m0 _ W') (wf_n m0 _ W') Rm)].
  apply (remove_hookman_follows m0 k (mn_obj m) m k' W Gm); auto. intros v Hv C.
  refine (owned_not_only (c_h k) (mn_obj m) m v (wf_n m0 _ W) (wf_h m0 _ W) O Gm Hv _ C).
  intros i q x Hi Hx. replace (mn_plug m) with p by congruence.
  apply (T (mn_obj m) (vf_ptr v) (if_ptr i) q x).
  - rewrite (managers_vfn _ v (wf_h _ _ W) Hv), C. left. reflexivity.
  - unfold manager_of. rewrite Gm. cbn. congruence.
  - unfold hook_function. rewrite Gm. cbn. congruence.
  - rewrite (installed_iface _ v i q (wf_h _ _ W) Hv Hi). exact Hx.
Qed.

(** *** Pausing *)
Lemma pause_follows : forall m0 k D p h', WF m0 k -> h' = set_vfns (c_h k) (map (pause_vfn D p) (h_vfns (c_h k))) ->
  follows (fun _ => True) k (Core h' (c_cs k) (c_tasks k)).
Proof.
  intros m0 k D p h' W ->. pose proof (pause_WF m0 k D p W) as W'. apply (follows_moves m0 k _ (fun c => c)); auto.
  - apply (moves_pause _ _ D p); auto; [apply (wf_h m0 _ W)|apply (wf_h m0 _ W')|apply (wf_n m0 _ W')].
  - intros O. rewrite map_id. auto.
Qed.

(** *** Adding *)
Lemma mn_register_thunks : forall h o h', mn_register h o = Some h' -> h_thunks h' = h_thunks h.
Proof. intros h o h' E. unfold mn_register in E. destruct (get_man h o); [|discriminate]. destruct (h_pfs h _); injection E as <-; reflexivity. Qed.
Lemma mn_unregister_thunks : forall h o h', mn_unregister h o = Some h' -> h_thunks h' = h_thunks h.
Proof. intros h o h' E. unfold mn_unregister in E. destruct (get_man h o); [|discriminate]. destruct (h_pfs h _); injection E as <-; reflexivity. Qed.
Lemma incr_ref_thunks : forall h o vo h', incr_ref h o vo = Some h' -> h_thunks h' = h_thunks h.
Proof.
  intros h o vo h' E. unfold incr_ref in E. destruct (get_man h o); [|discriminate]. destruct (length _ =? 1).
  - apply mn_register_thunks in E. exact E.
  - injection E as <-. reflexivity.
Qed.
Lemma decr_ref_thunks : forall h o vo h', decr_ref h o vo = Some h' -> h_thunks h' = h_thunks h.
Proof.
  intros h o vo h' E. unfold decr_ref in E. destruct (get_man h o); [|discriminate]. destruct (length _ =? 0).
  - apply mn_unregister_thunks in E. exact E.
  - injection E as <-. reflexivity.
Qed.
Lemma add_hookman_thunks : forall h vo o h', add_hookman h vo o = Some h' -> h_thunks h' = h_thunks h.
Proof.
  intros h vo o h' E. unfold add_hookman in E. destruct (get_vfn h vo) as [v|]; [|discriminate]. destruct (get_man h o) as [m|]; [|discriminate].
  destruct (Z.eqb _ _); [injection E as <-; reflexivity|]. destruct (memb _ _); [injection E as <-; reflexivity|].
  destruct (insert_man _ _ _ _) as [[|x l]|]; try discriminate. destruct (x =? o); [|injection E as <-; reflexivity].
  destruct (incr_ref _ o vo) as [h2|] eqn:E2; [|discriminate]. apply incr_ref_thunks in E2.
  destruct l as [|y l].
  - injection E as <-. exact E2.
  - destruct (decr_ref h2 y vo) as [h3|] eqn:E3; [|discriminate]. apply decr_ref_thunks in E3. injection E as <-. cbn. rewrite E3. exact E2.
Qed.
Lemma add_hook_thunks : forall m0 h plug mode ifp offs pf handler post h' id, WM m0 h -> (forall s, Z.odd (m0 s) = false) ->
  add_hook h plug mode ifp offs pf handler post = Some (h', id) -> h_thunks h' = h_thunks h.
Proof.
  intros m0 h plug mode ifp offs pf handler post h' id M Ev E. unfold add_hook in E.
  destruct (pf_valid h pf) as [info|]; [|injection E as <- _; reflexivity].
  destruct (match mode with ADVP => false | _ => Z.eqb (ifp + offs) 0 end); [discriminate|].
  destruct (hook_target h mode ifp offs info) as [slot adj]. destruct (get_vfnptr h slot) as [h1 vo] eqn:E1.
  assert (T1 : h_thunks h1 = h_thunks h).
  { unfold get_vfnptr in E1. destruct (find (vfn_at slot) (h_vfns h)) as [v|] eqn:Fv; [injection E1 as <- _; reflexivity|].
    rewrite (wm_mem0 m0 h M slot) in E1.
    - cbn [odd_code] in E1. rewrite Ev in E1. injection E1 as <- _. reflexivity.
    - intros v Hv C. pose proof (find_none _ _ Fv v Hv) as X. unfold vfn_at in X. rewrite C, Z.eqb_refl in X. discriminate. }
  destruct (get_hookman h1 plug pf info) as [h2 mo] eqn:E2.
  assert (T2 : h_thunks h2 = h_thunks h1).
  { unfold get_hookman in E2. destruct (find _ _); injection E2 as <- _; reflexivity. }
  destruct (add_hookman h2 vo mo) as [h3|] eqn:E3; [|discriminate]. apply add_hookman_thunks in E3.
  destruct (get_iface h3 vo adj) as [[h4 io]|] eqn:E4; [|discriminate].
  assert (T4 : h_thunks h4 = h_thunks h3).
  { unfold get_iface in E4. destruct (get_vfn h3 vo); [|discriminate]. destruct (find _ _); injection E4 as <- _; reflexivity. }
  destruct (id_new _ _ _) as [ids' kk]. injection E as <- _. cbn. congruence.
Qed.

(** ** All API functions *)
(** Where an event would hook *)
Definition add_ok (h : hs) (A : list aframe) (plug : Z) (mode : addmode) (ifp offs pf : Z) : Prop :=
  (mode = ADVP \/ (ifp + offs)%Z <> 0%Z) /\
  (forall m, In m (h_mans h) -> mn_pf m = pf -> mn_plug m = plug) /\
  (forall info f a, pf_valid h pf = Some info -> In f A -> af_hook f = Some a -> a_alive a = true ->
     no_refill h (fst (hook_target h mode ifp offs info)) (snd (hook_target h mode ifp offs info)) a).

Definition api_ok (h : hs) (A : list aframe) (e : event) : Prop :=
  match e with
  | EAddHook plug mode ifp offs pf _ _ => add_ok h A plug mode ifp offs pf
  | ERemoveMan plug pf | EReconfigure plug pf _ _ => tidy_man h plug pf
  | _ => True
  end.

Lemma follows_tr : forall m0 k h', WF m0 k -> WF m0 (Core h' (c_cs k) (c_tasks k)) -> h_vfns h' = h_vfns (c_h k) ->
  h_nxt (c_h k) <= h_nxt h' -> h_thunks h' = h_thunks (c_h k) -> follows (fun _ => True) k (Core h' (c_cs k) (c_tasks k)) /\ shrinks (c_h k) h'.
Proof.
  intros m0 k h' W W' V Nx Th. split.
  - apply (follows_same m0); cbn [c_h c_cs c_tasks]; auto; [|congruence]. intros v Hv. exists v. rewrite V. auto.
  - split.
    + intros s. unfold hookedb. rewrite V. auto.
    + intros s a. unfold presentb, installed. rewrite V. auto.
Qed.

Lemma api_follows : forall m0 s e s' A, Good m0 s -> owned (s_h s) -> (forall a, Z.odd (m0 a) = false) ->
  runs e = false -> api_ok (s_h s) A e -> step s e = Ok s' ->
  exists ok, follows ok (s_k s) (s_k s') /\ (forall f a, In f A -> af_hook f = Some a -> a_alive a = true -> ok a).
Proof.
  intros m0 s e s' A G Ow Ev Hr Ok E. destruct G as [W P R D]. pose proof (Build_Good m0 s W P R D) as G.
  assert (Tr : forall k', follows (fun _ => True) (s_k s) k' ->
            exists ok, follows ok (s_k s) k' /\ (forall f a, In f A -> af_hook f = Some a -> a_alive a = true -> ok a)).
  { intros k' F. exists (fun _ => True). auto. }
  destruct e; try discriminate; cbn [step] in E; cbn [api_ok] in Ok.
  - destruct Ok as (O1 & O2 & O3).
    destruct (add_hook_cases m0 s plug mode ifp offs pf handler post G) as [[_ Ea]|[(B1 & B2 & _)|(info & h' & hk & Vp & Ea & _ & _ & _ & _ & Ad & G' & _)]].
    + rewrite Ea in E. injection E as <-. apply Tr.
      destruct (follows_tr m0 (s_k s) (s_h s) W) as [F _]; auto. apply (g_wf m0 _ (Good_api m0 (Core (s_h s) (c_cs (s_k s)) (c_tasks (s_k s))) s G eq_refl eq_refl)).
    + destruct O1; congruence.
    + rewrite Ea in E. injection E as <-. eexists. split; [|intros f a Hf Ha Al; apply (O3 info f a Vp Hf Ha Al)].
      pose proof (g_wf m0 _ G') as W'. apply (follows_moves m0 (s_k s) _ (fun c => c)); auto.
      * apply (moves_add _ _ _ _ post hk); auto; try apply W; try apply W'. destruct (ad_fresh _ _ _ _ _ _ Ad). cbn. change (c_h (s_k s)) with (s_h s). lia.
      * intros O. rewrite map_id. auto.
      * intros Th. cbn. rewrite (add_hook_thunks m0 (s_h s) plug mode ifp offs pf handler post h' (hk_id hk) (wf_m m0 _ W) Ev Ea). exact Th.
  - destruct (remove_hook (s_k s) plug ifp offs pf handler post) as [[k b]|] eqn:Er; [|discriminate]. injection E as <-. apply Tr.
    apply (remove_hook_follows m0 (s_k s) plug ifp offs pf handler post k b); auto.
  - destruct (remove_by_id (s_k s) id) as [[k b]|] eqn:Er; [|discriminate]. injection E as <-. apply Tr.
    apply (remove_by_id_follows m0 (s_k s) id k b); auto.
  - injection E as <-. apply Tr. apply (pause_follows m0 (s_k s) (Z.eqb id) p); auto.
    change (s_h s) with (c_h (s_k s)). rewrite (set_paused_eq (c_h (s_k s)) id p (wf_h m0 _ W)). reflexivity.
  - injection E as <-. apply Tr. destruct (pause_plugin_ok m0 (s_k s) plug p W) as [_ (D' & E & _)].
    apply (pause_follows m0 (s_k s) D' p); auto.
  - unfold unload_plugin in E. destruct (unload_hooks (s_k s) plug) as [k|] eqn:Eu; [|discriminate]. apply Tr.
    destruct (unload_hooks_ok m0 (s_k s) plug W) as (k1 & D1 & E1 & W1 & _). assert (k1 = k) by congruence. subst k1.
    pose proof (unload_hooks_follows m0 (s_k s) plug k W Ow Eu) as F.
    destruct (cs_depth (c_cs k) =? 0); injection E as <-; [|exact F].
    assert (W2 : WF m0 (Core (emit (c_h k) (OReady plug listener)) (c_cs k) (c_tasks k))).
    { destruct W1 as [M1 M2 M3 M4]. constructor; cbn; auto; [apply (WM_ext_mu m0 (c_h k)); auto|apply (WH_ext (c_h k)); auto|apply WT_emit; exact M4]. }
    destruct (follows_tr m0 k (emit (c_h k) (OReady plug listener)) W1 W2) as [F2 S2]; auto.
    apply (follows_trans _ _ k _ F F2 S2).
  - destruct (remove_hookman_pf (s_k s) plug pf) as [k|] eqn:Er; [|discriminate]. injection E as <-. apply Tr.
    apply (remove_hookman_pf_follows m0 (s_k s) plug pf k W Ow Ok Er).
  - destruct (reconfigure (s_k s) plug pf voffs vidx) as [k|] eqn:Er; [|discriminate]. injection E as <-. apply Tr.
    assert (X : exists k1, remove_hookman_pf (s_k s) plug pf = Some k1 /\ Good m0 (with_k s k1)).
    { destruct (api_total m0 s (ERemoveMan plug pf) G eq_refl) as (s1 & E1 & G1 & _); [intros []|]. cbn [step] in E1.
      destruct (remove_hookman_pf (s_k s) plug pf) as [k1|]; [|discriminate]. injection E1 as <-. exists k1. auto. }
    destruct X as (k1 & E1 & G1). destruct (remove_hookman_pf_follows m0 (s_k s) plug pf k1 W Ow Ok E1) as [F1 _].
    pose proof (reconfigure_ok m0 s k1 plug pf voffs vidx k G E1 G1 Er) as G2.
    unfold reconfigure in Er. rewrite E1 in Er. destruct (h_pfs (c_h k1) pf) as [i|]; injection Er as <-; [|exact F1].
    destruct (follows_tr m0 k1 _ (g_wf m0 _ G1) (g_wf m0 _ G2)) as [F2 S2]; auto.
    apply (follows_trans _ _ k1 _ F1 F2 S2).
  - destruct (complete_shutdown (s_k s)) as [k|] eqn:Er; [|discriminate]. injection E as <-. apply Tr.
    apply (shutdown_follows m0 (s_k s) k W Er).
  - injection E as <-. apply Tr. destruct (api_total m0 s (ESetVt addr vt) G eq_refl) as (s1 & E1 & G1 & _); [intros []|].
    injection E1 as <-. apply (follows_tr m0 (s_k s) _ W (g_wf m0 _ G1)); auto.
Qed.
