(** The client view of the data structures ([installed], [managers]) under each
    operation. *)
From Coq Require Import List Bool Arith ZArith Lia Sorted Permutation.
From Verif Require Import ProtoModel ProtoSpec ProtoProofs ShModel ShRun ShLists ShInv ShMan ShHooks ShAdd ShRem ShApi ShUnload ShHist ShGood ShPool ShSpec.
Import ListNotations.
Local Open Scope nat_scope.

Lemma flat_map_key : forall {A B K} (key : A -> K) (eqb : K -> K -> bool) k (f : A -> list B) l x,
  (forall a b, eqb a b = true <-> a = b) -> NoDup (map key l) -> In x l -> key x = k ->
  flat_map (fun y => if eqb (key y) k then f y else []) l = f x.
Proof.
  intros A B K key eqb k f l x He. induction l as [|y l IH]; intros ND Hx E; [contradiction|].
  cbn in *. inversion ND; subst. destruct (eqb (key y) (key x)) eqn:Eq.
  - apply He in Eq. assert (y = x).
    { destruct Hx as [->|Hx]; auto. exfalso. apply H1. rewrite Eq. apply in_map. exact Hx. }
    subst y. rewrite <- app_nil_r. f_equal.
    clear IH ND Hx H2. induction l as [|z l IH]; [reflexivity|]. cbn. destruct (eqb (key z) (key x)) eqn:Ez.
    + apply He in Ez. exfalso. apply H1. rewrite <- Ez. left. reflexivity.
    + apply IH. intros C. apply H1. right. exact C.
  - destruct Hx as [->|Hx].
    + assert (eqb (key x) (key x) = true) by (apply He; reflexivity). congruence.
    + cbn. apply IH; auto.
Qed.
Lemma flat_map_none : forall {A B K} (key : A -> K) (eqb : K -> K -> bool) k (f : A -> list B) l,
  (forall a b, eqb a b = true <-> a = b) -> (forall x, In x l -> key x <> k) ->
  flat_map (fun y => if eqb (key y) k then f y else []) l = [].
Proof.
  intros A B K key eqb k f l He. induction l as [|y l IH]; intros N; [reflexivity|]. cbn.
  destruct (eqb (key y) k) eqn:E.
  - apply He in E. exfalso. apply (N y); cbn; auto.
  - apply IH. intros x Hx. apply N. right. exact Hx.
Qed.

Lemma installed_iface : forall h v i p, WH h -> In v (h_vfns h) -> In i (vf_ifaces v) ->
  installed h (vf_ptr v) (if_ptr i) p = hooks_of p i.
Proof.
  intros h v i p W Hv Hi. unfold installed.
  rewrite (flat_map_key vf_ptr Z.eqb (vf_ptr v) _ (h_vfns h) v Z.eqb_eq (wh_vptr h W) Hv eq_refl).
  rewrite (flat_map_key if_ptr Z.eqb (if_ptr i) (fun i => if p then if_post i else if_pre i) (vf_ifaces v) i Z.eqb_eq (wh_iptr h W v Hv) Hi eq_refl).
  destruct p; reflexivity.
Qed.

Lemma in_installed : forall h s a p k, In k (installed h s a p) <-> hook_at h s a p k.
Proof.
  intros h s a p k. unfold installed, hook_at. rewrite in_flat_map. split.
  - intros (v & Hv & H). destruct (Z.eqb (vf_ptr v) s) eqn:E; [|contradiction]. apply Z.eqb_eq in E.
    apply in_flat_map in H. destruct H as (i & Hi & H). destruct (Z.eqb (if_ptr i) a) eqn:Ea; [|contradiction].
    apply Z.eqb_eq in Ea. exists v, i. destruct p; auto 10.
  - intros (v & i & Hv & E & Hi & Ea & H). exists v. split; auto. rewrite E, Z.eqb_refl. apply in_flat_map.
    exists i. rewrite Ea, Z.eqb_refl. destruct p; auto.
Qed.

Lemma installed_cases : forall h s a p, WH h ->
  (exists v i, In v (h_vfns h) /\ In i (vf_ifaces v) /\ vf_ptr v = s /\ if_ptr i = a /\ installed h s a p = hooks_of p i) \/
  installed h s a p = [].
Proof.
  intros h s a p W. destruct (installed h s a p) as [|k l] eqn:E; [auto|]. left.
  assert (H : hook_at h s a p k) by (apply in_installed; rewrite E; left; reflexivity).
  destruct H as (v & i & Hv & <- & Hi & <- & _). exists v, i. do 4 (split; [auto|]).
  rewrite <- E. apply installed_iface; auto.
Qed.
Lemma installed_sorted : forall h s a p, WH h -> StronglySorted lt (map hk_nid (installed h s a p)).
Proof.
  intros h s a p W. destruct (installed_cases h s a p W) as [(v & i & Hv & Hi & _ & _ & E)|E]; rewrite E; [|constructor].
  apply (wh_sorted h W v i p); auto.
Qed.

(** Lists sorted by a key are determined by their elements. *)
Lemma sorted_ext : forall {A} (key : A -> nat) l1 l2,
  StronglySorted lt (map key l1) -> StronglySorted lt (map key l2) -> (forall x, In x l1 <-> In x l2) -> l1 = l2.
Proof.
  intros A key l1. induction l1 as [|a l1 IH]; intros [|b l2] S1 S2 H.
  - reflexivity.
  - exfalso. apply (H b). left. reflexivity.
  - exfalso. apply (H a). left. reflexivity.
  - cbn in S1, S2. inversion S1 as [|x y S1' F1]; subst. inversion S2 as [|x y S2' F2]; subst.
    rewrite Forall_forall in F1, F2.
    assert (E : a = b).
    { destruct (proj1 (H a) (or_introl eq_refl)) as [->|Ha]; auto.
      destruct (proj2 (H b) (or_introl eq_refl)) as [->|Hb]; auto.
      pose proof (F1 _ (in_map key _ _ Hb)). pose proof (F2 _ (in_map key _ _ Ha)). lia. }
    subst b. f_equal. apply IH; auto. intros x. split; intros Hx.
    + destruct (proj1 (H x) (or_intror Hx)) as [->|]; auto. pose proof (F1 _ (in_map key _ _ Hx)). lia.
    + destruct (proj2 (H x) (or_intror Hx)) as [->|]; auto. pose proof (F2 _ (in_map key _ _ Hx)). lia.
Qed.
Lemma sorted_filter : forall {A} (key : A -> nat) f l, StronglySorted lt (map key l) -> StronglySorted lt (map key (filter f l)).
Proof.
  intros A key f l. induction l as [|a l IH]; intros S; [constructor|]. cbn in S. inversion S as [|x y S' F]; subst.
  cbn. destruct (f a); [|auto]. cbn. constructor; [auto|]. rewrite Forall_forall in *. intros n Hn. apply F.
  apply in_map_iff in Hn. destruct Hn as (z & <- & Hz). apply in_map. apply filter_In in Hz. apply Hz.
Qed.

Lemma removed_installed : forall h h' D, WH h -> WH h' -> removed h h' D ->
  forall s a p, installed h' s a p = without (fun k => D (hk_id k)) (installed h s a p).
Proof.
  intros h h' D W W' R s a p. apply (sorted_ext hk_nid).
  - apply installed_sorted. exact W'.
  - apply sorted_filter. apply installed_sorted. exact W.
  - intros k. unfold without. rewrite filter_In, !in_installed, (rv_hooks _ _ _ R), negb_true_iff. tauto.
Qed.

Definition is_here (s a : Z) (p : bool) (s' a' : Z) (p' : bool) : bool := Z.eqb s' s && Z.eqb a' a && Bool.eqb p' p.
Lemma added_installed : forall h h' slot adj post hk, WH h -> WH h' -> added h h' slot adj post hk ->
  forall s a p, installed h' s a p = installed h s a p ++ (if is_here slot adj post s a p then [hk] else []).
Proof.
  intros h h' slot adj post hk W W' A s a p. apply (sorted_ext hk_nid).
  - apply installed_sorted. exact W'.
  - rewrite map_app. pose proof (installed_sorted h s a p W) as S. unfold is_here.
    destruct (_ && _); [|rewrite app_nil_r; exact S]. cbn [map]. apply sorted_snoc; auto.
    intros n Hn. apply in_map_iff in Hn. destruct Hn as (k & <- & Hk). apply in_installed in Hk.
    destruct (wh_entry h W _ _ _ _ Hk) as (e & Q & E). destruct E as (_ & _ & _ & _ & _ & En & _).
    assert (In (hk_nid k) (h_delegs h)) by (apply (wh_delegs h W); eauto).
    pose proof (wh_fresh_n h W _ H). pose proof (ad_fresh _ _ _ _ _ _ A). lia.
  - intros k. rewrite in_app_iff, !in_installed, (ad_hooks _ _ _ _ _ _ A). unfold is_here. split.
    + intros [H|(-> & -> & -> & ->)]; [left; exact H|]. right. rewrite !Z.eqb_refl, eqb_reflx. left. reflexivity.
    + intros [H|H]; [left; exact H|]. right. destruct (_ && _) eqn:E; [|contradiction].
      rewrite !andb_true_iff, !Z.eqb_eq, eqb_true_iff in E. destruct E as [[-> ->] ->]. destruct H as [->|[]]. auto.
Qed.

Lemma pause_installed : forall h D p, WH h -> WH (set_vfns h (map (pause_vfn D p) (h_vfns h))) ->
  forall s a q, installed (set_vfns h (map (pause_vfn D p) (h_vfns h))) s a q = map (pause_hook D p) (installed h s a q).
Proof.
  intros h D p W W' s a q. apply (sorted_ext hk_nid).
  - apply installed_sorted. exact W'.
  - rewrite map_map. rewrite (map_ext _ hk_nid) by (intros; apply pause_hook_nid). apply installed_sorted. exact W.
  - intros k. rewrite in_installed, (pause_hook_at h D p), in_map_iff. split.
    + intros (k0 & H & ->). exists k0. rewrite in_installed. auto.
    + intros (k0 & <- & H). exists k0. rewrite in_installed in H. auto.
Qed.

Lemma installed_ext : forall h h', h_vfns h' = h_vfns h -> forall s a p, installed h' s a p = installed h s a p.
Proof. intros h h' E s a p. unfold installed. rewrite E. reflexivity. Qed.

(** ** Ids *)
Lemma installed_query : forall h s a p k, WH h -> In k (installed h s a p) ->
  exists e, query_hook (h_ids h) (hk_id k) = Some e /\ entry_for e s a p k.
Proof. intros h s a p k W H. apply in_installed in H. apply (wh_entry h W _ _ _ _ H). Qed.
Lemma query_installed : forall h id e, WH h -> query_hook (h_ids h) id = Some e ->
  exists k, In k (installed h (en_vfnptr e) (en_adj e) (en_post e)) /\ hk_id k = id.
Proof. intros h id e W Q. destruct (wh_hook h W id e Q) as (k & H & E). exists k. split; [apply in_installed; exact H|exact E]. Qed.

Lemma ids_unique : forall h s a p k s' a' p' k', WH h -> In k (installed h s a p) -> In k' (installed h s' a' p') ->
  hk_id k = hk_id k' -> s = s' /\ a = a' /\ p = p' /\ k = k'.
Proof.
  intros h s a p k s' a' p' k' W H H' E.
  destruct (installed_query h s a p k W H) as (e & Q & (E1 & E2 & E3 & E4 & E5 & E6 & E7)).
  destruct (installed_query h s' a' p' k' W H') as (e' & Q' & (F1 & F2 & F3 & F4 & F5 & F6 & F7)).
  rewrite E, Q' in Q. injection Q as <-. assert (s = s') by congruence. assert (a = a') by congruence. assert (p = p') by congruence.
  subst s' a' p'. split; auto. split; auto. split; auto.
  destruct (installed_cases h s a p W) as [(v & i & Hv & Hi & _ & _ & Ei)|Ei]; [|rewrite Ei in H; contradiction].
  apply (nodup_key_inj hk_nid (hooks_of p i)).
  - apply sorted_lt_nodup. apply (wh_sorted h W v i p); auto.
  - rewrite <- Ei. exact H.
  - rewrite <- Ei, H0, H1, H2. exact H'.
  - congruence.
Qed.

Lemma installed_deleg : forall h s a p k, WH h -> In k (installed h s a p) -> In (hk_nid k) (h_delegs h).
Proof.
  intros h s a p k W H. destruct (installed_query h s a p k W H) as (e & Q & E). apply (wh_delegs h W). exists (hk_id k), e.
  split; auto. apply E.
Qed.
Lemma deleg_installed : forall h n, WH h -> In n (h_delegs h) -> exists s a p k, In k (installed h s a p) /\ hk_nid k = n.
Proof.
  intros h n W H. apply (wh_delegs h W) in H. destruct H as (id & e & Q & E). destruct (query_installed h id e W Q) as (k & Hk & Ei).
  exists (en_vfnptr e), (en_adj e), (en_post e), k. split; auto.
  destruct (installed_query h _ _ _ _ W Hk) as (e' & Q' & X). rewrite Ei, Q in Q'. injection Q' as <-. destruct X as (_ & _ & _ & _ & _ & X & _). congruence.
Qed.
Lemma installed_pos : forall h s a p k, WH h -> In k (installed h s a p) -> (1 <= hk_id k)%Z.
Proof.
  intros h s a p k W H. destruct (installed_query h s a p k W H) as (e & Q & _). destruct (query_pos _ _ _ Q). lia.
Qed.

(** ** Slots *)
Lemma hooked_vfn : forall h s, WN h -> (hooked h s <-> exists v, In v (h_vfns h) /\ vf_ptr v = s).
Proof.
  intros h s N. split.
  - intros (a & p & k & H). apply in_installed in H. destruct H as (v & _ & Hv & E & _). eauto.
  - intros (v & Hv & <-). destruct (N v Hv) as (_ & Ni & Nh). destruct (vf_ifaces v) as [|i l] eqn:Ei; [contradiction|].
    specialize (Nh i (or_introl eq_refl)). destruct (if_pre i) as [|k r] eqn:Ep.
    + destruct (if_post i) as [|k r] eqn:Eq; [contradiction|]. exists (if_ptr i), true, k. apply in_installed.
      exists v, i. rewrite Ei. cbn. rewrite Eq. repeat (split; auto); left; reflexivity.
    + exists (if_ptr i), false, k. apply in_installed. exists v, i. rewrite Ei. cbn. rewrite Ep. repeat (split; auto); left; reflexivity.
Qed.

Lemma managers_vfn : forall h v, WH h -> In v (h_vfns h) -> managers h (vf_ptr v) = vf_mans v.
Proof. intros h v W Hv. exact (flat_map_key vf_ptr Z.eqb (vf_ptr v) vf_mans (h_vfns h) v Z.eqb_eq (wh_vptr h W) Hv eq_refl). Qed.
Lemma managers_none : forall h s, (forall v, In v (h_vfns h) -> vf_ptr v <> s) -> managers h s = [].
Proof. intros h s H. exact (flat_map_none vf_ptr Z.eqb s vf_mans (h_vfns h) Z.eqb_eq H). Qed.
Lemma managers_cases : forall h s, WH h ->
  (exists v, In v (h_vfns h) /\ vf_ptr v = s /\ managers h s = vf_mans v) \/
  ((forall v, In v (h_vfns h) -> vf_ptr v <> s) /\ managers h s = []).
Proof.
  intros h s W. destruct (find (vfn_at s) (h_vfns h)) as [v|] eqn:E.
  - left. destruct (find_key_in _ vf_ptr _ _ _ (sel_vfn_at s) E) as [Hv <-]. exists v. repeat split; auto. apply managers_vfn; auto.
  - right. pose proof (proj1 (find_key_none _ vf_ptr s _ (sel_vfn_at s)) E) as N. split; auto. apply managers_none. exact N.
Qed.
