(** Preservation of the hook invariant. *)
From Coq Require Import List Bool Arith ZArith Lia Sorted Permutation.
From Verif Require Import ProtoModel ShModel ShLists ShInv ShMan.
Import ListNotations.
Local Open Scope nat_scope.

(** ** The hook id manager *)
Definition qn (ids : list entry) (n : nat) : option entry :=
  match nth_error ids n with Some e => if en_free e then None else Some e | None => None end.

Lemma query_qn : forall ids id, query_hook ids id = if (id - 1 <? 0)%Z then None else qn ids (Z.to_nat (id - 1)).
Proof. reflexivity. Qed.

Lemma query_pos : forall ids id e, query_hook ids id = Some e -> (0 < id)%Z /\ en_free e = false.
Proof.
  intros ids id e H. unfold query_hook in H. destruct (id - 1 <? 0)%Z eqn:E; [discriminate|].
  apply Z.ltb_ge in E. destruct (nth_error ids _) as [x|]; [|discriminate].
  destruct (en_free x) eqn:F; [discriminate|]. injection H as ->. split; [lia|auto].
Qed.

Lemma query_S : forall ids n, query_hook ids (Z.of_nat n + 1) = qn ids n.
Proof.
  intros ids n. rewrite query_qn. replace (Z.of_nat n + 1 - 1)%Z with (Z.of_nat n) by lia.
  destruct (Z.of_nat n <? 0)%Z eqn:E; [apply Z.ltb_lt in E; lia|]. rewrite Nat2Z.id. reflexivity.
Qed.

Lemma query_nat : forall ids id e, query_hook ids id = Some e -> id = (Z.of_nat (Z.to_nat (id - 1)) + 1)%Z.
Proof. intros ids id e H. apply query_pos in H. lia. Qed.

Lemma id_new_spec : forall ids e i ids' k, en_free e = false -> id_new ids e i = (ids', k) ->
  exists n, k = i + n /\ qn ids n = None /\ qn ids' n = Some e /\ forall x, x <> n -> qn ids' x = qn ids x.
Proof.
  intros ids e. induction ids as [|a l IH]; intros i ids' k F H; cbn [id_new] in H.
  - injection H as <- <-. exists 0. split; [lia|]. split; [reflexivity|]. split.
    + unfold qn. cbn [nth_error]. rewrite F. reflexivity.
    + intros [|x] Hx; [lia|]. unfold qn. cbn [nth_error]. destruct x; reflexivity.
  - destruct (en_free a) eqn:Fa.
    + injection H as <- <-. exists 0. split; [lia|]. split.
      { unfold qn. cbn [nth_error]. rewrite Fa. reflexivity. }
      split.
      * unfold qn. cbn [nth_error]. rewrite F. reflexivity.
      * intros [|x] Hx; [lia|]. reflexivity.
    + destruct (id_new l e (S i)) as [l' k'] eqn:En. injection H as <- <-.
      destruct (IH (S i) l' k' F En) as (n & H1 & H2 & H3 & H4).
      exists (S n). split; [lia|]. split; [exact H2|]. split; [exact H3|].
      intros [|x] Hx; [reflexivity|]. apply (H4 x). lia.
Qed.

Lemma id_new_query : forall ids e ids' k, en_free e = false -> id_new ids e 0 = (ids', k) ->
  let id := (Z.of_nat k + 1)%Z in
  query_hook ids id = None /\ query_hook ids' id = Some e /\
  forall x, x <> id -> query_hook ids' x = query_hook ids x.
Proof.
  intros ids e ids' k F H id. destruct (id_new_spec ids e 0 ids' k F H) as (n & H1 & H2 & H3 & H4).
  cbn [Nat.add] in H1. subst n. unfold id. rewrite !query_S. split; [auto|]. split; [auto|].
  intros x Hx. rewrite !query_qn. destruct (x - 1 <? 0)%Z eqn:E; [reflexivity|]. apply Z.ltb_ge in E.
  apply H4. intros C. apply Hx. unfold id. lia.
Qed.

Lemma id_remove_query : forall ids id x,
  query_hook (id_remove ids id) x = if Z.eqb x id then None else query_hook ids x.
Proof.
  intros ids id x. unfold id_remove. destruct (query_hook ids id) as [e|] eqn:Q.
  - pose proof (query_pos ids id e Q) as [P _].
    rewrite !query_qn. destruct (Z.eqb x id) eqn:E.
    + apply Z.eqb_eq in E. subst x. destruct (id - 1 <? 0)%Z; [reflexivity|].
      unfold qn. rewrite nth_error_upd_nth, Nat.eqb_refl.
      destruct (nth_error ids _); reflexivity.
    + apply Z.eqb_neq in E. destruct (x - 1 <? 0)%Z eqn:L; [reflexivity|]. apply Z.ltb_ge in L.
      unfold qn. rewrite nth_error_upd_nth.
      destruct (Z.to_nat (id - 1) =? Z.to_nat (x - 1)) eqn:C; [apply Nat.eqb_eq in C; lia|reflexivity].
  - destruct (Z.eqb x id) eqn:E; [|reflexivity]. apply Z.eqb_eq in E. subst x. exact Q.
Qed.

Lemma id_remove_all_query : forall ids p x,
  query_hook (id_remove_all ids p) x =
  match query_hook ids x with Some e => if Z.eqb (en_vfnptr e) p then None else Some e | None => None end.
Proof.
  intros ids p x. rewrite !query_qn. destruct (x - 1 <? 0)%Z; [reflexivity|].
  unfold qn, id_remove_all. rewrite nth_error_map.
  destruct (nth_error ids (Z.to_nat (x - 1))) as [e|]; cbn [option_map]; [|reflexivity].
  destruct (en_free e) eqn:F; cbn [negb andb].
  - rewrite F. reflexivity.
  - destruct (Z.eqb (en_vfnptr e) p); [reflexivity|]. rewrite F. reflexivity.
Qed.

Lemma find_ids_in : forall p ids i x,
  In x (find_ids p ids i) <-> exists n e, x = (i + Z.of_nat n + 1)%Z /\ qn ids n = Some e /\ p e = true.
Proof.
  intros p ids. induction ids as [|a l IH]; intros i x; cbn [find_ids].
  - split; [intros []|]. intros (n & e & _ & H & _). destruct n; discriminate.
  - assert (St : (exists n e, x = (i + 1 + Z.of_nat n + 1)%Z /\ qn l n = Some e /\ p e = true) <->
                 (exists n e, n <> 0 /\ x = (i + Z.of_nat n + 1)%Z /\ qn (a :: l) n = Some e /\ p e = true)).
    { split.
      - intros (n & e & H1 & H2 & H3). exists (S n), e. repeat split; auto; lia.
      - intros (n & e & H0 & H1 & H2 & H3). destruct n as [|n]; [congruence|]. exists n, e. repeat split; auto; lia. }
    destruct (negb (en_free a) && p a) eqn:E.
    + apply andb_true_iff in E. destruct E as [E1 E2]. apply negb_true_iff in E1. cbn [In]. rewrite IH, St. split.
      * intros [<-|(n & e & H0 & H)]; [|exists n, e; exact H].
        exists 0, a. split; [lia|]. split; auto. unfold qn. cbn [nth_error]. rewrite E1. reflexivity.
      * intros (n & e & H). destruct n as [|n].
        { left. lia. } right. exists (S n), e. split; [lia|exact H].
    + rewrite IH, St. split.
      * intros (n & e & H0 & H). exists n, e. exact H.
      * intros (n & e & H). destruct n as [|n].
        { exfalso. destruct H as (_ & H2 & H3). unfold qn in H2. cbn [nth_error] in H2.
          destruct (en_free a) eqn:Fa; [discriminate|]. injection H2 as ->. rewrite H3 in E. discriminate. }
        exists (S n), e. split; [lia|exact H].
Qed.

Lemma find_ids_query : forall p ids x,
  In x (find_ids p ids 0) <-> exists e, query_hook ids x = Some e /\ p e = true.
Proof.
  intros p ids x. rewrite find_ids_in. split.
  - intros (n & e & H1 & H2 & H3). exists e. replace x with (Z.of_nat n + 1)%Z by lia. rewrite query_S. auto.
  - intros (e & H1 & H2). exists (Z.to_nat (x - 1)), e. pose proof (query_nat _ _ _ H1) as Ex.
    split; [lia|]. split; auto. rewrite Ex, query_S in H1. exact H1.
Qed.

(** ** Extension *)
Lemma hook_at_ext : forall h h' s a p k, map vsk (h_vfns h') = map vsk (h_vfns h) ->
  (hook_at h' s a p k <-> hook_at h s a p k).
Proof.
  assert (G : forall h h' s a p k, map vsk (h_vfns h') = map vsk (h_vfns h) -> hook_at h' s a p k -> hook_at h s a p k).
  { intros h h' s a p k E (v' & i & H1 & H2 & H3).
    assert (H : In (vsk v') (map vsk (h_vfns h))) by (rewrite <- E; apply in_map; auto).
    apply in_map_iff in H. destruct H as (v & G1 & G2). unfold vsk in G1. exists v, i. split; auto.
    replace (vf_ptr v) with (vf_ptr v') by congruence. replace (vf_ifaces v) with (vf_ifaces v') by congruence. auto. }
  intros h h' s a p k E. split; apply G; auto.
Qed.

Lemma vsk_ptr : forall l l', map vsk l' = map vsk l -> map vf_ptr l' = map vf_ptr l.
Proof.
  intros l l' H. assert (G : map (fun k => snd (fst (fst (fst k)))) (map vsk l') = map (fun k => snd (fst (fst (fst k)))) (map vsk l)) by congruence.
  rewrite !map_map in G. exact G.
Qed.
Lemma vsk_obj : forall l l', map vsk l' = map vsk l -> map vf_obj l' = map vf_obj l.
Proof.
  intros l l' H. assert (G : map (fun k => fst (fst (fst (fst k)))) (map vsk l') = map (fun k => fst (fst (fst (fst k)))) (map vsk l)) by congruence.
  rewrite !map_map in G. exact G.
Qed.

Lemma WH_ext : forall h h', WH h -> map vsk (h_vfns h') = map vsk (h_vfns h) ->
  h_ids h' = h_ids h -> h_delegs h' = h_delegs h -> h_nxt h <= h_nxt h' -> WH h'.
Proof.
  intros h h' W E Ei Ed N.
  assert (I1 : forall v', In v' (h_vfns h') -> exists v, In v (h_vfns h) /\ vf_ptr v' = vf_ptr v /\ vf_ifaces v' = vf_ifaces v).
  { intros v' Hv. assert (G : In (vsk v') (map vsk (h_vfns h))) by (rewrite <- E; apply in_map; auto).
    apply in_map_iff in G. destruct G as (v & G1 & G2). unfold vsk in G1. exists v. split; auto. split; congruence. }
  constructor.
  - rewrite (vsk_ptr _ _ E). apply (wh_vptr h W).
  - rewrite (vsk_obj _ _ E). apply (wh_vobj h W).
  - intros v Hv. destruct (I1 v Hv) as (w & H1 & H2 & H3). rewrite H3. apply (wh_iptr h W w H1).
  - intros v1 i1 v2 i2 A1 B1 A2 B2 Eo. destruct (I1 v1 A1) as (w1 & H1 & H2 & H3).
    destruct (I1 v2 A2) as (w2 & G1 & G2 & G3). rewrite H3 in B1. rewrite G3 in B2. rewrite H2, G2.
    apply (wh_iobj h W w1 i1 w2 i2); auto.
  - intros v i p Hv Hi. destruct (I1 v Hv) as (w & H1 & H2 & H3). rewrite H3 in Hi. apply (wh_sorted h W w i p); auto.
  - intros s a p k H. rewrite Ei. apply (hook_at_ext h h' s a p k E) in H. apply (wh_entry h W s a p k H).
  - intros id e H. rewrite Ei in H. destruct (wh_hook h W id e H) as (k & K1 & K2). exists k. split; auto.
    apply (hook_at_ext h h' _ _ _ _ E). auto.
  - intros id e id' e'. rewrite Ei. apply (wh_nid h W).
  - intros n. rewrite Ed, Ei. apply (wh_delegs h W).
  - rewrite Ed. apply (wh_dnd h W).
  - intros v i Hv Hi. destruct (I1 v Hv) as (w & H1 & H2 & H3). rewrite H3 in Hi.
    pose proof (wh_fresh_i h W w i H1 Hi). lia.
  - intros n Hn. rewrite Ed in Hn. pose proof (wh_fresh_n h W n Hn). lia.
Qed.

(** ** Updating the interfaces of one vfnptr *)
Section Upd.
  Variable h h' : hs.
  Variable v : vfn.
  Variable L : list iface.
  Hypothesis Nv : NoDup (map vf_obj (h_vfns h)).
  Hypothesis Np : NoDup (map vf_ptr (h_vfns h)).
  Hypothesis Hv : In v (h_vfns h).
  Hypothesis Ev : h_vfns h' = upd_first (vfn_is (vf_obj v)) (set_vf_ifaces L) (h_vfns h).

  Lemma upd_in : forall y, In y (h_vfns h') <-> (In y (h_vfns h) /\ vf_obj y <> vf_obj v) \/ y = set_vf_ifaces L v.
  Proof.
    intros y. rewrite Ev. rewrite (in_upd_first _ vf_obj (vf_obj v)) by (auto using sel_vfn_is). split.
    - intros [H|(x & H1 & H2 & H3)]; auto. right. assert (x = v) by (eapply (nodup_key_inj vf_obj); eauto). congruence.
    - intros [H| ->]; auto. right. exists v. auto.
  Qed.

  Lemma upd_ptr_neq : forall y, In y (h_vfns h) -> vf_obj y <> vf_obj v -> vf_ptr y <> vf_ptr v.
  Proof. intros y Hy Hn C. apply Hn. f_equal. eapply (nodup_key_inj vf_ptr); eauto. Qed.

  Lemma upd_hook_at : forall s a p k, hook_at h' s a p k <->
    (s <> vf_ptr v /\ hook_at h s a p k) \/
    (s = vf_ptr v /\ exists i, In i L /\ if_ptr i = a /\ In k (hooks_of p i)).
  Proof.
    intros s a p k. split.
    - intros (y & i & H1 & H2 & H3 & H4 & H5). apply upd_in in H1. destruct H1 as [[H1 Hn]| ->].
      + left. split; [subst s; apply upd_ptr_neq; auto|]. exists y, i. auto.
      + right. split; [symmetry; exact H2|]. exists i. auto.
    - intros [[Hn (y & i & H1 & H2 & H3)]|[-> (i & H)]].
      + exists y, i. split; auto. apply upd_in. left. split; auto.
        intros C. apply Hn. subst s. f_equal. eapply (nodup_key_inj vf_obj); eauto.
      + exists (set_vf_ifaces L v), i. split; [apply upd_in; auto|]. split; [reflexivity|exact H].
  Qed.

  Lemma upd_msk : map msk (h_vfns h') = map msk (h_vfns h).
  Proof. rewrite Ev. apply map_upd_first_same. intros x _ _. reflexivity. Qed.
  Lemma upd_thunks : vfn_thunks h' = vfn_thunks h.
  Proof.
    unfold vfn_thunks. rewrite Ev. clear. induction (h_vfns h) as [|a l IH]; cbn [upd_first flat_map]; [reflexivity|].
    destruct (vfn_is (vf_obj v) a); cbn [flat_map]; [reflexivity|]. rewrite IH. reflexivity.
  Qed.
End Upd.

(** hooks of one list: [hook_at] restricted to a vfnptr *)
Lemma hook_at_vfn : forall h v s a p k, WH h -> In v (h_vfns h) -> vf_ptr v = s -> hook_at h s a p k ->
  exists i, In i (vf_ifaces v) /\ if_ptr i = a /\ In k (hooks_of p i).
Proof.
  intros h v s a p k W Hv E (y & i & H1 & H2 & H3 & H4 & H5).
  assert (y = v) by (eapply (nodup_key_inj vf_ptr); eauto; [apply (wh_vptr h W)|congruence]). subst y. eauto.
Qed.

Lemma hook_at_id_inj : forall h s a p k s' a' p' k', WH h -> hook_at h s a p k -> hook_at h s' a' p' k' ->
  hk_id k = hk_id k' -> s = s' /\ a = a' /\ p = p' /\ hk_nid k = hk_nid k'.
Proof.
  intros h s a p k s' a' p' k' W H1 H2 E.
  destruct (wh_entry h W s a p k H1) as (e & Q & F). destruct (wh_entry h W s' a' p' k' H2) as (e' & Q' & F').
  rewrite E in Q. assert (e = e') by congruence. subst e'.
  destruct F as (? & ? & ? & ? & ? & ? & ?). destruct F' as (? & ? & ? & ? & ? & ? & ?). repeat split; congruence.
Qed.

Lemma iface_unique : forall h v i i', WH h -> In v (h_vfns h) -> In i (vf_ifaces v) -> In i' (vf_ifaces v) ->
  if_ptr i = if_ptr i' -> i = i'.
Proof.
  intros h v i i' W Hv H1 H2 E. eapply (nodup_key_inj if_ptr); eauto. apply (wh_iptr h W v Hv).
Qed.

Lemma hook_unique : forall h s a p k k', WH h -> hook_at h s a p k -> hook_at h s a p k' -> hk_nid k = hk_nid k' -> k = k'.
Proof.
  intros h s a p k k' W (v & i & A1 & A2 & A3 & A4 & A5) H' E.
  destruct (hook_at_vfn h v s a p k' W A1 A2 H') as (i' & B1 & B2 & B3).
  assert (i' = i) by (eapply iface_unique; eauto; congruence). subst i'.
  eapply (nodup_key_inj hk_nid); eauto. apply sorted_lt_nodup. apply (wh_sorted h W v i p A1 A3).
Qed.

Lemma hook_at_id_eq : forall h s a p k s' a' p' k', WH h -> hook_at h s a p k -> hook_at h s' a' p' k' ->
  hk_id k = hk_id k' -> s = s' /\ a = a' /\ p = p' /\ k = k'.
Proof.
  intros h s a p k s' a' p' k' W H1 H2 E.
  destruct (hook_at_id_inj h s a p k s' a' p' k' W H1 H2 E) as (E1 & E2 & E3 & E4). subst s' a' p'.
  repeat split; auto. eapply hook_unique; eauto.
Qed.

Lemma hook_at_nid_eq : forall h s a p k s' a' p' k', WH h -> hook_at h s a p k -> hook_at h s' a' p' k' ->
  hk_nid k = hk_nid k' -> s = s' /\ a = a' /\ p = p' /\ k = k'.
Proof.
  intros h s a p k s' a' p' k' W H1 H2 E.
  destruct (wh_entry h W s a p k H1) as (e & Q & F). destruct (wh_entry h W s' a' p' k' H2) as (e' & Q' & F').
  eapply hook_at_id_eq; eauto. eapply (wh_nid h W _ e _ e'); eauto.
  destruct F as (? & ? & ? & ? & ? & ? & ?). destruct F' as (? & ? & ? & ? & ? & ? & ?). congruence.
Qed.

Lemma hook_in_delegs : forall h s a p k, WH h -> hook_at h s a p k -> In (hk_nid k) (h_delegs h).
Proof.
  intros h s a p k W H. destruct (wh_entry h W s a p k H) as (e & Q & F). apply (wh_delegs h W).
  exists (hk_id k), e. split; auto. destruct F as (? & ? & ? & ? & ? & ? & ?). auto.
Qed.
