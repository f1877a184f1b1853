(** Preservation of the manager invariant. *)
From Coq Require Import List Bool Arith ZArith Lia Sorted.
From Verif Require Import ProtoModel ShModel ShLists ShInv.
Import ListNotations.
Local Open Scope nat_scope.

(** ** get_man *)
Lemma find_upd_man : forall o x f l, (forall m, mn_obj (f m) = mn_obj m) ->
  find (man_is x) (upd_first (man_is o) f l) =
  if x =? o then option_map f (find (man_is o) l) else find (man_is x) l.
Proof.
  intros o x f l Hf. induction l as [|a l IH]; cbn [upd_first find].
  - destruct (x =? o); reflexivity.
  - destruct (man_is o a) eqn:E; cbn [find].
    + unfold man_is in *. apply Nat.eqb_eq in E. subst o. rewrite Hf.
      rewrite (Nat.eqb_sym x). destruct (mn_obj a =? x) eqn:E2; [reflexivity|]. reflexivity.
    + rewrite IH. destruct (man_is x a) eqn:E2.
      * unfold man_is in *. apply Nat.eqb_eq in E2. subst x. rewrite E. reflexivity.
      * reflexivity.
Qed.

Lemma get_man_obj : forall h o m, get_man h o = Some m -> In m (h_mans h) /\ mn_obj m = o.
Proof. intros h o m H. exact (find_key_in _ _ o _ _ (sel_man_is o) H). Qed.

Lemma get_man_in : forall h m, NoDup (map mn_obj (h_mans h)) -> In m (h_mans h) -> get_man h (mn_obj m) = Some m.
Proof.
  intros h m N H. apply (find_key _ mn_obj (mn_obj m)); auto. apply sel_man_is.
Qed.

Lemma get_vfn_obj : forall h o v, get_vfn h o = Some v -> In v (h_vfns h) /\ vf_obj v = o.
Proof. intros h o v H. exact (find_key_in _ _ o _ _ (sel_vfn_is o) H). Qed.
Lemma get_vfn_in : forall h v, NoDup (map vf_obj (h_vfns h)) -> In v (h_vfns h) -> get_vfn h (vf_obj v) = Some v.
Proof.
  intros h v N H. apply (find_key _ vf_obj (vf_obj v)); auto. apply sel_vfn_is.
Qed.

(** keys determine versions and public functions *)
Lemma mkey4_get : forall l l' x, map mkey4 l' = map mkey4 l ->
  match find (man_is x) l', find (man_is x) l with
  | Some m', Some m => mkey4 m' = mkey4 m
  | None, None => True
  | _, _ => False
  end.
Proof.
  intros l l' x H. revert l' H. induction l as [|a l IH]; intros [|b l'] H; cbn [map] in H; try discriminate.
  - exact I.
  - injection H as H1 H2 H3 H4 H5. cbn [find]. replace (man_is x b) with (man_is x a) by (unfold man_is; congruence).
    destruct (man_is x a).
    + unfold mkey4. congruence.
    + apply IH. auto.
Qed.

Lemma mu_get : forall h h' x, mans_upd h h' ->
  match get_man h' x, get_man h x with
  | Some m', Some m => mkey4 m' = mkey4 m
  | None, None => True
  | _, _ => False
  end.
Proof. intros h h' x M. apply mkey4_get. apply (mu_key h h' M). Qed.

Lemma key_get_ex : forall h h' x m, map mkey4 (h_mans h') = map mkey4 (h_mans h) -> get_man h x = Some m ->
  exists m', get_man h' x = Some m' /\ mkey4 m' = mkey4 m.
Proof.
  intros h h' x m K G. pose proof (mkey4_get _ _ x K) as H. unfold get_man in *. rewrite G in H.
  destruct (find (man_is x) (h_mans h')); [|destruct H]. eexists. split; eauto.
Qed.

Lemma mu_ver : forall h h' x, map mkey4 (h_mans h') = map mkey4 (h_mans h) -> man_ver h' x = man_ver h x.
Proof.
  intros h h' x K. pose proof (mkey4_get _ _ x K) as H. unfold man_ver, get_man in *.
  destruct (find (man_is x) (h_mans h')), (find (man_is x) (h_mans h)); try contradiction; auto.
  unfold mkey4 in H. congruence.
Qed.
Lemma mu_pf : forall h h' x, map mkey4 (h_mans h') = map mkey4 (h_mans h) -> man_pf h' x = man_pf h x.
Proof.
  intros h h' x K. pose proof (mkey4_get _ _ x K) as H. unfold man_pf, get_man in *.
  destruct (find (man_is x) (h_mans h')), (find (man_is x) (h_mans h)); try contradiction; auto.
  unfold mkey4 in H. cbn. congruence.
Qed.
Lemma mu_plug : forall h h' x, map mkey4 (h_mans h') = map mkey4 (h_mans h) -> man_plug h' x = man_plug h x.
Proof.
  intros h h' x K. pose proof (mkey4_get _ _ x K) as H. unfold man_plug, get_man in *.
  destruct (find (man_is x) (h_mans h')), (find (man_is x) (h_mans h)); try contradiction; auto.
  unfold mkey4 in H. cbn. congruence.
Qed.
Lemma mu_in : forall h h' m', map mkey4 (h_mans h') = map mkey4 (h_mans h) -> In m' (h_mans h') ->
  exists m, In m (h_mans h) /\ mkey4 m' = mkey4 m.
Proof.
  intros h h' m' K H. assert (G : In (mkey4 m') (map mkey4 (h_mans h))) by (rewrite <- K; apply in_map; auto).
  apply in_map_iff in G. destruct G as (m & E & I). exists m. auto.
Qed.

Lemma mkey4_obj : forall l l', map mkey4 l' = map mkey4 l -> map mn_obj l' = map mn_obj l.
Proof.
  intros l l' H. assert (G : map (fun k => fst (fst k)) (map mkey4 l') = map (fun k => fst (fst k)) (map mkey4 l)) by congruence.
  rewrite !map_map in G. exact G.
Qed.
Lemma mkey4_key : forall l l', map mkey4 l' = map mkey4 l ->
  map (fun m => (mn_plug m, mn_pf m)) l' = map (fun m => (mn_plug m, mn_pf m)) l.
Proof.
  intros l l' H. assert (G : map (fun k => snd (fst k)) (map mkey4 l') = map (fun k => snd (fst k)) (map mkey4 l)) by congruence.
  rewrite !map_map in G. exact G.
Qed.

Lemma mans_upd_refl : forall h, mans_upd h h.
Proof. intros h. constructor; reflexivity. Qed.
Lemma mans_upd_trans : forall a b c, mans_upd a b -> mans_upd b c -> mans_upd a c.
Proof. intros a b c [] []. constructor; congruence. Qed.

(** ** IncrRef and DecrRef *)
Definition pf_known (h : hs) (m : man) : Prop :=
  exists i, h_pfs h (mn_pf m) = Some i /\ pf_ver i = pf_ver (mn_info m).

Lemma mn_register_spec : forall h o m, get_man h o = Some m -> pf_known h m ->
  exists h', mn_register h o = Some h' /\ mans_upd h h' /\
    (forall x, vfns_of h' x = vfns_of h x) /\
    h_mshi h' = zupd (h_mshi h) (mn_pf m) (Some o) /\ h_tr h' = ORegister o :: h_tr h.
Proof.
  intros h o m G (i & Hi & Hv). unfold mn_register. rewrite G, Hi. eexists. split; [reflexivity|].
  split; [|split; [|split; reflexivity]].
  - constructor; try reflexivity. cbn [h_mans emit set_tr set_mans].
    apply (map_upd_first_find mkey4 _ _ _ m G). unfold mkey4. cbn [mn_obj mn_plug mn_pf mn_info set_mn_info]. congruence.
  - intros x. unfold vfns_of, get_man. cbn [h_mans emit set_tr set_mans].
    rewrite find_upd_man by reflexivity. destruct (x =? o) eqn:E; [|reflexivity].
    apply Nat.eqb_eq in E. subst x. unfold get_man in G. rewrite G. reflexivity.
Qed.

Lemma mn_unregister_spec : forall h o m, get_man h o = Some m -> pf_known h m ->
  exists h', mn_unregister h o = Some h' /\ mans_upd h h' /\
    (forall x, vfns_of h' x = vfns_of h x) /\
    h_mshi h' = zupd (h_mshi h) (mn_pf m) None /\ h_tr h' = OUnregister o :: h_tr h.
Proof.
  intros h o m G (i & Hi & Hv). unfold mn_unregister. rewrite G, Hi. eexists. split; [reflexivity|].
  split; [constructor; reflexivity|]. split; [reflexivity|]. split; reflexivity.
Qed.

Lemma set_vfns_of : forall h o m l, get_man h o = Some m ->
  let h1 := set_mans h (upd_first (man_is o) (set_mn_vfns l) (h_mans h)) in
  mans_upd h h1 /\ (forall x, vfns_of h1 x = if x =? o then Some l else vfns_of h x) /\
  exists m1, get_man h1 o = Some m1 /\ mkey4 m1 = mkey4 m /\ (pf_known h m -> pf_known h1 m1).
Proof.
  intros h o m l G. cbn zeta. split; [|split].
  - constructor; try reflexivity. cbn [h_mans set_mans].
    apply (map_upd_first_find mkey4 _ _ _ m G). reflexivity.
  - intros x. unfold vfns_of, get_man. cbn [h_mans set_mans].
    rewrite find_upd_man by reflexivity. destruct (x =? o) eqn:E; [|reflexivity].
    unfold get_man in G. rewrite G. reflexivity.
  - exists (set_mn_vfns l m). split; [|split; [reflexivity|auto]].
    unfold get_man. cbn [h_mans set_mans]. rewrite find_upd_man by reflexivity.
    rewrite Nat.eqb_refl. unfold get_man in G. rewrite G. reflexivity.
Qed.

(** effect of Register / Unregister on ms_HI and the trace *)
Lemma incr_ref_spec : forall h o vo m, get_man h o = Some m -> pf_known h m ->
  exists h', incr_ref h o vo = Some h' /\ mans_upd h h' /\
    (forall x, vfns_of h' x = if x =? o then Some (mn_vfns m ++ [vo]) else vfns_of h x) /\
    (if length (mn_vfns m) =? 0
     then h_mshi h' = zupd (h_mshi h) (mn_pf m) (Some o) /\ h_tr h' = ORegister o :: h_tr h
     else h_mshi h' = h_mshi h /\ h_tr h' = h_tr h).
Proof.
  intros h o vo m G K. unfold incr_ref. rewrite G.
  destruct (set_vfns_of h o m (mn_vfns m ++ [vo]) G) as (M1 & V1 & m1 & G1 & K1 & P1).
  rewrite app_length. cbn [length].
  set (h1 := set_mans _ _) in *.
  destruct (length (mn_vfns m) =? 0) eqn:E.
  - apply Nat.eqb_eq in E. rewrite E. cbn [Nat.add Nat.eqb].
    destruct (mn_register_spec h1 o m1 G1 (P1 K)) as (h' & R & M2 & V2 & S2 & T2).
    exists h'. split; [exact R|]. split; [eapply mans_upd_trans; eauto|]. split.
    { intros x. rewrite V2. apply V1. }
    assert (mn_pf m1 = mn_pf m) as Ep by (unfold mkey4 in K1; congruence). rewrite Ep in S2. auto.
  - apply Nat.eqb_neq in E. replace (length (mn_vfns m) + 1 =? 1) with false by (symmetry; apply Nat.eqb_neq; lia).
    exists h1. split; [reflexivity|]. split; [exact M1|]. split; [exact V1|]. split; reflexivity.
Qed.

Lemma decr_ref_spec : forall h o vo m, get_man h o = Some m -> pf_known h m ->
  exists h', decr_ref h o vo = Some h' /\ mans_upd h h' /\
    (forall x, vfns_of h' x = if x =? o then Some (del_first (Nat.eqb vo) (mn_vfns m)) else vfns_of h x) /\
    (if length (del_first (Nat.eqb vo) (mn_vfns m)) =? 0
     then h_mshi h' = zupd (h_mshi h) (mn_pf m) None /\ h_tr h' = OUnregister o :: h_tr h
     else h_mshi h' = h_mshi h /\ h_tr h' = h_tr h).
Proof.
  intros h o vo m G K. unfold decr_ref. rewrite G.
  destruct (set_vfns_of h o m (del_first (Nat.eqb vo) (mn_vfns m)) G) as (M1 & V1 & m1 & G1 & K1 & P1).
  set (h1 := set_mans _ _) in *.
  destruct (length _ =? 0) eqn:E.
  - destruct (mn_unregister_spec h1 o m1 G1 (P1 K)) as (h' & R & M2 & V2 & S2 & T2).
    exists h'. split; [exact R|]. split; [eapply mans_upd_trans; eauto|]. split.
    { intros x. rewrite V2. apply V1. }
    assert (mn_pf m1 = mn_pf m) as Ep by (unfold mkey4 in K1; congruence). rewrite Ep in S2. auto.
  - exists h1. split; [reflexivity|]. split; [exact M1|]. split; [exact V1|]. split; reflexivity.
Qed.

(** ** Insertion by version *)
Lemma insert_man_spec : forall h o ver l,
  (forall x, In x l -> exists v, man_ver h x = Some v) -> man_ver h o = Some ver ->
  StronglySorted (ver_ge h) l ->
  exists l', insert_man h o ver l = Some l' /\
    (forall x, In x l' <-> x = o \/ In x l) /\
    StronglySorted (ver_ge h) l' /\
    (NoDup l -> ~ In o l -> NoDup l') /\
    ((l' = o :: l /\ (forall x v, hd_error l = Some x -> man_ver h x = Some v -> (v < ver)%Z)) \/
     (hd_error l' = hd_error l /\ exists x v, hd_error l = Some x /\ man_ver h x = Some v /\ (ver <= v)%Z)).
Proof.
  intros h o ver l. induction l as [|a l IH]; intros Hl Ho S; cbn [insert_man].
  - exists [o]. split; [reflexivity|]. split; [intros x; cbn [In]; intuition congruence|].
    split; [repeat constructor|]. split; [repeat constructor; auto|]. left. split; [reflexivity|].
    intros x v H. discriminate.
  - destruct (Hl a (or_introl eq_refl)) as (va & Ea). rewrite Ea.
    apply StronglySorted_inv in S. destruct S as [S1 S2].
    destruct (va <? ver)%Z eqn:E.
    + apply Z.ltb_lt in E. exists (o :: a :: l). split; [reflexivity|].
      split; [intros x; cbn [In]; intuition congruence|]. split; [|split; [|left; split; [reflexivity|]]].
      * constructor; [constructor; auto|]. constructor.
        { unfold ver_ge. rewrite Ho, Ea. lia. }
        rewrite Forall_forall in *. intros x Hx. specialize (S2 x Hx). unfold ver_ge in *.
        rewrite Ea in S2. rewrite Ho. destruct (man_ver h x); auto. lia.
      * intros N1 N2. constructor; auto.
      * intros x v Hx Hv. injection Hx as <-. congruence.
    + apply Z.ltb_ge in E.
      destruct (IH (fun x Hx => Hl x (or_intror Hx)) Ho S1) as (l' & R & I & S & N & _).
      rewrite R. exists (a :: l'). split; [reflexivity|]. split; [|split; [|split]].
      * intros x. cbn [In]. rewrite (I x). intuition.
      * constructor; auto. rewrite Forall_forall in *. intros x Hx. apply I in Hx.
        destruct Hx as [->|Hx]; [|auto]. unfold ver_ge. rewrite Ea, Ho. lia.
      * intros N1 N2. inversion N1; subst. constructor.
        { rewrite I. intros [->|C]; [|auto]. apply N2. cbn [In]. auto. }
        apply N; auto. intros C. apply N2. cbn [In]. auto.
      * right. split; [reflexivity|]. exists a, va. split; [reflexivity|]. auto.
Qed.

(** ** Extension lemmas *)
Lemma slot_code_key : forall h h' v, map mkey4 (h_mans h') = map mkey4 (h_mans h) -> slot_code h' v = slot_code h v.
Proof.
  intros h h' v K. unfold slot_code. destruct (vf_mans v); [reflexivity|]. rewrite (mu_pf h h' n K). reflexivity.
Qed.

Lemma ver_ge_key : forall h h' l, map mkey4 (h_mans h') = map mkey4 (h_mans h) ->
  StronglySorted (ver_ge h) l -> StronglySorted (ver_ge h') l.
Proof.
  intros h h' l K H. induction H; constructor; auto.
  eapply Forall_impl; [|exact H0]. intros x. unfold ver_ge. rewrite !(mu_ver h h' _ K). auto.
Qed.

Lemma vfns_of_get : forall h o l, vfns_of h o = Some l -> exists m, get_man h o = Some m /\ mn_vfns m = l.
Proof.
  intros h o l H. unfold vfns_of in H. destruct (get_man h o) as [m|]; [|discriminate].
  exists m. injection H as <-. auto.
Qed.

Lemma wm_known : forall m0 h m, WM m0 h -> In m (h_mans h) -> pf_known h m.
Proof.
  intros m0 h m W H. destruct (wm_ver m0 h W m H) as (i & H1 & H2 & _). exists i. auto.
Qed.

Lemma nodup_hd_tl : forall {A} (x : A) l, NoDup (x :: l) -> ~ In x l.
Proof. intros A x l H. inversion H. auto. Qed.

(** WM only looks at [msk] of the vfnptrs. *)
Lemma WM_ext : forall m0 h h', WM m0 h ->
  map msk (h_vfns h') = map msk (h_vfns h) -> map mkey4 (h_mans h') = map mkey4 (h_mans h) ->
  (forall x, vfns_of h' x = vfns_of h x) -> h_mem h' = h_mem h -> h_pfs h' = h_pfs h -> h_nxt h <= h_nxt h' ->
  WM m0 h'.
Proof.
  intros m0 h h' W E K V Mm P N.
  assert (I1 : forall v', In v' (h_vfns h') -> exists v, In v (h_vfns h) /\ msk v' = msk v).
  { intros v' Hv. assert (G : In (msk v') (map msk (h_vfns h))) by (rewrite <- E; apply in_map; auto).
    apply in_map_iff in G. destruct G as (v & G1 & G2). exists v. auto. }
  assert (I2 : forall v, In v (h_vfns h) -> exists v', In v' (h_vfns h') /\ msk v' = msk v).
  { intros v Hv. assert (G : In (msk v) (map msk (h_vfns h'))) by (rewrite E; apply in_map; auto).
    apply in_map_iff in G. destruct G as (v' & G1 & G2). exists v'. auto. }
  constructor.
  - assert (G : map (fun k => fst (fst (fst k))) (map msk (h_vfns h')) = map (fun k => fst (fst (fst k))) (map msk (h_vfns h))) by congruence.
    rewrite !map_map in G. change (map vf_obj (h_vfns h') = map vf_obj (h_vfns h)) in G. rewrite G. apply (wm_vobj m0 h W).
  - assert (G : map (fun k => snd (fst (fst k))) (map msk (h_vfns h')) = map (fun k => snd (fst (fst k))) (map msk (h_vfns h))) by congruence.
    rewrite !map_map in G. change (map vf_ptr (h_vfns h') = map vf_ptr (h_vfns h)) in G. rewrite G. apply (wm_vptr m0 h W).
  - rewrite (mkey4_obj _ _ K). apply (wm_mobj m0 h W).
  - rewrite (mkey4_key _ _ K). apply (wm_mkey m0 h W).
  - intros v' mo Hv Hm. destruct (I1 v' Hv) as (v & Hv2 & Ev). unfold msk in Ev.
    destruct (wm_ref m0 h W v mo Hv2) as (m & G); [congruence|].
    destruct (key_get_ex h h' mo m K G) as (m' & G' & _). eauto.
  - intros v' Hv. destruct (I1 v' Hv) as (v & Hv2 & Ev). unfold msk in Ev.
    replace (vf_mans v') with (vf_mans v) by congruence. apply (wm_nd m0 h W v Hv2).
  - intros v' Hv. destruct (I1 v' Hv) as (v & Hv2 & Ev). unfold msk in Ev.
    replace (vf_mans v') with (vf_mans v) by congruence. apply (ver_ge_key h h' _ K). apply (wm_sort m0 h W v Hv2).
  - intros mo l. rewrite V. apply (wm_vnd m0 h W).
  - intros mo l vo. rewrite V. intros Hl. rewrite (wm_act m0 h W mo l vo Hl). split.
    + intros (v & H1 & H2 & H3). destruct (I2 v H1) as (v' & H4 & Ev). unfold msk in Ev. exists v'. split; auto.
      split; congruence.
    + intros (v' & H1 & H2 & H3). destruct (I1 v' H1) as (v & H4 & Ev). unfold msk in Ev. exists v. split; auto.
      split; congruence.
  - intros v' Hv. destruct (I1 v' Hv) as (v & Hv2 & Ev). unfold msk in Ev.
    rewrite (slot_code_key h h' v' K). rewrite Mm.
    replace (slot_code h v') with (slot_code h v).
    { replace (vf_ptr v') with (vf_ptr v) by congruence. apply (wm_mem m0 h W v Hv2). }
    unfold slot_code. replace (vf_mans v') with (vf_mans v) by congruence.
    replace (vf_orig v') with (vf_orig v) by congruence. reflexivity.
  - intros v' Hv. destruct (I1 v' Hv) as (v & Hv2 & Ev). unfold msk in Ev.
    replace (vf_orig v') with (vf_orig v) by congruence.
    replace (vf_ptr v') with (vf_ptr v) by congruence. apply (wm_orig m0 h W v Hv2).
  - intros s Hs. rewrite Mm. apply (wm_mem0 m0 h W). intros v Hv.
    destruct (I2 v Hv) as (v' & Hv2 & Ev). unfold msk in Ev. specialize (Hs v' Hv2). congruence.
  - intros m' Hm. destruct (mu_in h h' m' K Hm) as (m & Hm2 & Em). unfold mkey4 in Em.
    destruct (wm_ver m0 h W m Hm2) as (i & H1 & H2 & H3). exists i. rewrite P. repeat split; congruence.
  - intros v' Hv. destruct (I1 v' Hv) as (v & Hv2 & Ev). unfold msk in Ev.
    pose proof (wm_fresh_v m0 h W v Hv2). assert (vf_obj v' = vf_obj v) by congruence. lia.
  - intros m' Hm. destruct (mu_in h h' m' K Hm) as (m & Hm2 & Em). unfold mkey4 in Em.
    pose proof (wm_fresh_m m0 h W m Hm2). assert (mn_obj m' = mn_obj m) by congruence. lia.
Qed.

Lemma WM_ext_mu : forall m0 h h', WM m0 h -> map msk (h_vfns h') = map msk (h_vfns h) ->
  h_mans h' = h_mans h -> h_mem h' = h_mem h -> h_pfs h' = h_pfs h -> h_nxt h <= h_nxt h' -> WM m0 h'.
Proof.
  intros m0 h h' W E K Mm P N. apply (WM_ext m0 h h' W E); auto.
  - rewrite K. reflexivity.
  - intros x. unfold vfns_of, get_man. rewrite K. reflexivity.
Qed.

(** Changing the manager list of one vfnptr. *)
Lemma WM_change : forall m0 h h' v l', WM m0 h -> In v (h_vfns h) ->
  h_vfns h' = upd_first (vfn_is (vf_obj v)) (set_vf_mans l') (h_vfns h) ->
  map mkey4 (h_mans h') = map mkey4 (h_mans h) ->
  h_pfs h' = h_pfs h -> h_nxt h' = h_nxt h ->
  (forall mo, In mo l' -> exists m, get_man h mo = Some m) -> NoDup l' -> StronglySorted (ver_ge h) l' ->
  (forall s, s <> vf_ptr v -> h_mem h' s = h_mem h s) ->
  slot_code h (set_vf_mans l' v) = Some (h_mem h' (vf_ptr v)) ->
  (forall x lx', vfns_of h' x = Some lx' -> NoDup lx' /\
     forall vo, In vo lx' <-> (vo = vf_obj v /\ hd_error l' = Some x) \/
                            (vo <> vf_obj v /\ exists lx, vfns_of h x = Some lx /\ In vo lx)) ->
  WM m0 h'.
Proof.
  intros m0 h h' v l' W Hv E K P N Lr Ln Ls Mo Mv V.
  assert (Nv : NoDup (map vf_obj (h_vfns h))) by apply (wm_vobj m0 h W).
  assert (I : forall y, In y (h_vfns h') <-> (In y (h_vfns h) /\ vf_obj y <> vf_obj v) \/ y = set_vf_mans l' v).
  { intros y. rewrite E. rewrite (in_upd_first _ vf_obj (vf_obj v)) by (auto using sel_vfn_is). split.
    - intros [H|(x & H1 & H2 & H3)]; auto. right.
      assert (x = v) by (eapply nodup_key_inj; eauto). congruence.
    - intros [H| ->]; auto. right. exists v. auto. }
  assert (Ptr : forall y, In y (h_vfns h) -> vf_obj y <> vf_obj v -> vf_ptr y <> vf_ptr v).
  { intros y Hy Hn C. apply Hn. f_equal. eapply (nodup_key_inj vf_ptr); eauto. apply (wm_vptr m0 h W). }
  constructor.
  - rewrite E. rewrite map_upd_first_same; auto.
  - rewrite E. rewrite map_upd_first_same; auto. apply (wm_vptr m0 h W).
  - rewrite (mkey4_obj _ _ K). apply (wm_mobj m0 h W).
  - rewrite (mkey4_key _ _ K). apply (wm_mkey m0 h W).
  - intros y mo Hy Hm. assert (exists m, get_man h mo = Some m) as (m & G).
    { apply I in Hy. destruct Hy as [[H1 H2]| ->]; [eapply wm_ref; eauto|apply Lr; exact Hm]. }
    destruct (key_get_ex h h' mo m K G) as (m' & G' & _). eauto.
  - intros y Hy. apply I in Hy. destruct Hy as [[H1 H2]| ->]; [eapply wm_nd; eauto|exact Ln].
  - intros y Hy. apply (ver_ge_key h h' _ K). apply I in Hy.
    destruct Hy as [[H1 H2]| ->]; [eapply wm_sort; eauto|exact Ls].
  - intros mo l Hl. apply (V mo l Hl).
  - intros mo lx vo Hl. rewrite (proj2 (V mo lx Hl) vo). split.
    + intros [[-> H]|(Hn & l0 & H1 & H2)].
      * exists (set_vf_mans l' v). split; [apply I; auto|]. auto.
      * apply (wm_act m0 h W mo l0 vo H1) in H2. destruct H2 as (y & Y1 & Y2 & Y3).
        exists y. split; auto. apply I. left. split; congruence.
    + intros (y & Y1 & Y2 & Y3). apply I in Y1. destruct Y1 as [[Y1 Yn]| ->].
      * right. split; [congruence|].
        destruct (wm_ref m0 h W y mo Y1) as (m & G).
        { destruct (vf_mans y); [discriminate|]. injection Y3 as ->. left. reflexivity. }
        exists (mn_vfns m). assert (vfns_of h mo = Some (mn_vfns m)) as H by (unfold vfns_of; rewrite G; reflexivity).
        split; [exact H|]. apply (wm_act m0 h W mo _ vo H). exists y. auto.
      * left. split; [symmetry; exact Y2|exact Y3].
  - intros y Hy. rewrite (slot_code_key h h' y K). apply I in Hy. destruct Hy as [[H1 H2]| ->].
    + rewrite Mo by (apply Ptr; auto). apply (wm_mem m0 h W y H1).
    + exact Mv.
  - intros y Hy. apply I in Hy. destruct Hy as [[H1 H2]| ->]; [eapply wm_orig; eauto|apply (wm_orig m0 h W v Hv)].
  - intros s Hs. assert (s <> vf_ptr v).
    { intros ->. apply (Hs (set_vf_mans l' v)); [apply I; auto|reflexivity]. }
    rewrite Mo by auto. apply (wm_mem0 m0 h W). intros y Hy.
    destruct (Nat.eq_dec (vf_obj y) (vf_obj v)) as [e|n].
    + assert (y = v) as -> by (eapply nodup_key_inj; eauto). auto.
    + apply Hs. apply I. auto.
  - intros m' Hm. destruct (mu_in h h' m' K Hm) as (m & Hm2 & Em). unfold mkey4 in Em.
    destruct (wm_ver m0 h W m Hm2) as (i & H1 & H2 & H3). exists i. rewrite P. repeat split; congruence.
  - intros y Hy. rewrite N. apply I in Hy. destruct Hy as [[H1 H2]| ->]; [eapply wm_fresh_v; eauto|apply (wm_fresh_v m0 h W v Hv)].
  - intros m' Hm. rewrite N. destruct (mu_in h h' m' K Hm) as (m & Hm2 & Em). unfold mkey4 in Em.
    pose proof (wm_fresh_m m0 h W m Hm2). assert (mn_obj m' = mn_obj m) by congruence. lia.
Qed.

(** Removing a vfnptr and restoring its slot. *)
Lemma WM_delete : forall m0 h h' v, WM m0 h -> In v (h_vfns h) ->
  map msk (h_vfns h') = map msk (del_first (vfn_is (vf_obj v)) (h_vfns h)) ->
  map mkey4 (h_mans h') = map mkey4 (h_mans h) ->
  h_pfs h' = h_pfs h -> h_nxt h <= h_nxt h' ->
  h_mem h' = zupd (h_mem h) (vf_ptr v) (vf_orig v) ->
  (forall x lx', vfns_of h' x = Some lx' -> NoDup lx' /\
     forall vo, In vo lx' <-> (vo <> vf_obj v /\ exists lx, vfns_of h x = Some lx /\ In vo lx)) ->
  WM m0 h'.
Proof.
  intros m0 h h' v W Hv E K P N Mm V.
  assert (Nv : NoDup (map vf_obj (h_vfns h))) by apply (wm_vobj m0 h W).
  set (hd := Hs (h_pfs h') (h_mshi h') (h_mans h') (del_first (vfn_is (vf_obj v)) (h_vfns h)) (h_ids h') (h_mem h') (h_vt h')
                (h_delegs h') (h_thunks h') (h_nxt h') (h_tr h')).
  assert (Wd : WM m0 hd).
  2:{ apply (WM_ext m0 hd h' Wd); auto. }
  assert (I : forall y, In y (h_vfns hd) <-> (In y (h_vfns h) /\ vf_obj y <> vf_obj v)).
  { intros y. apply (in_del_first _ vf_obj (vf_obj v)); auto using sel_vfn_is. }
  assert (Ptr : forall y, In y (h_vfns h) -> vf_obj y <> vf_obj v -> vf_ptr y <> vf_ptr v).
  { intros y Hy Hn C. apply Hn. f_equal. eapply (nodup_key_inj vf_ptr); eauto. apply (wm_vptr m0 h W). }
  assert (K' : map mkey4 (h_mans hd) = map mkey4 (h_mans h)) by exact K.
  constructor.
  - apply nodup_del_first. auto.
  - apply nodup_del_first. apply (wm_vptr m0 h W).
  - rewrite (mkey4_obj _ _ K'). apply (wm_mobj m0 h W).
  - rewrite (mkey4_key _ _ K'). apply (wm_mkey m0 h W).
  - intros y mo Hy Hm. apply I in Hy. destruct Hy as [H1 H2].
    destruct (wm_ref m0 h W y mo H1 Hm) as (m & G).
    destruct (key_get_ex h hd mo m K' G) as (m' & G' & _). eauto.
  - intros y Hy. apply I in Hy. destruct Hy as [H1 H2]. eapply wm_nd; eauto.
  - intros y Hy. apply (ver_ge_key h hd _ K'). apply I in Hy. destruct Hy as [H1 H2]. eapply wm_sort; eauto.
  - intros mo l Hl. apply (V mo l Hl).
  - intros mo lx vo Hl. rewrite (proj2 (V mo lx Hl) vo). split.
    + intros (Hn & l0 & H1 & H2).
      apply (wm_act m0 h W mo l0 vo H1) in H2. destruct H2 as (y & Y1 & Y2 & Y3).
      exists y. split; auto. apply I. split; congruence.
    + intros (y & Y1 & Y2 & Y3). apply I in Y1. destruct Y1 as [Y1 Yn]. split; [congruence|].
      destruct (wm_ref m0 h W y mo Y1) as (m & G).
      { destruct (vf_mans y); [discriminate|]. injection Y3 as ->. left. reflexivity. }
      exists (mn_vfns m). assert (vfns_of h mo = Some (mn_vfns m)) as H by (unfold vfns_of; rewrite G; reflexivity).
      split; [exact H|]. apply (wm_act m0 h W mo _ vo H). exists y. auto.
  - intros y Hy. rewrite (slot_code_key h hd y K'). apply I in Hy. destruct Hy as [H1 H2].
    cbn [h_mem hd]. rewrite Mm. unfold zupd.
    destruct (Z.eqb (vf_ptr y) (vf_ptr v)) eqn:Ez; [apply Z.eqb_eq in Ez; exfalso; eapply Ptr; eauto|].
    apply (wm_mem m0 h W y H1).
  - intros y Hy. apply I in Hy. destruct Hy as [H1 H2]. eapply wm_orig; eauto.
  - intros s Hs. cbn [h_mem hd]. rewrite Mm. unfold zupd. destruct (Z.eqb s (vf_ptr v)) eqn:Ez.
    + apply Z.eqb_eq in Ez. subst s. apply (wm_orig m0 h W v Hv).
    + apply Z.eqb_neq in Ez. apply (wm_mem0 m0 h W). intros y Hy.
      destruct (Nat.eq_dec (vf_obj y) (vf_obj v)) as [e|n].
      * assert (y = v) as -> by (eapply nodup_key_inj; eauto). auto.
      * apply Hs. apply I. auto.
  - intros m' Hm. destruct (mu_in h hd m' K' Hm) as (m & Hm2 & Em). unfold mkey4 in Em.
    destruct (wm_ver m0 h W m Hm2) as (i & H1 & H2 & H3). exists i. cbn [h_pfs hd]. rewrite P. repeat split; congruence.
  - intros y Hy. apply I in Hy. destruct Hy as [H1 H2]. pose proof (wm_fresh_v m0 h W y H1). cbn [h_nxt hd]. lia.
  - intros m' Hm. destruct (mu_in h hd m' K' Hm) as (m & Hm2 & Em). unfold mkey4 in Em.
    pose proof (wm_fresh_m m0 h W m Hm2). assert (mn_obj m' = mn_obj m) by congruence. cbn [h_nxt hd]. lia.
Qed.

(** A new vfnptr (no managers yet). *)
Lemma WM_new_vfn : forall m0 h h' v, WM m0 h ->
  h_vfns h' = h_vfns h ++ [v] -> h_mans h' = h_mans h -> h_pfs h' = h_pfs h -> h_mem h' = h_mem h ->
  h_nxt h < h_nxt h' -> vf_obj v = h_nxt h -> vf_mans v = [] -> vf_orig v = h_mem h (vf_ptr v) ->
  (forall y, In y (h_vfns h) -> vf_ptr y <> vf_ptr v) -> WM m0 h'.
Proof.
  intros m0 h h' v W E K P Mm N Ob Ma Or Pt.
  assert (I : forall y, In y (h_vfns h') <-> In y (h_vfns h) \/ y = v).
  { intros y. rewrite E, in_app_iff. cbn [In]. intuition. }
  assert (K' : map mkey4 (h_mans h') = map mkey4 (h_mans h)) by congruence.
  assert (G : forall x, get_man h' x = get_man h x) by (intros x; unfold get_man; rewrite K; reflexivity).
  assert (V : forall x, vfns_of h' x = vfns_of h x) by (intros x; unfold vfns_of; rewrite G; reflexivity).
  constructor.
  - rewrite E, map_app. cbn [map]. apply nodup_snoc; [apply (wm_vobj m0 h W)|].
    intros C. apply in_map_iff in C. destruct C as (y & C1 & C2). pose proof (wm_fresh_v m0 h W y C2). lia.
  - rewrite E, map_app. cbn [map]. apply nodup_snoc; [apply (wm_vptr m0 h W)|].
    intros C. apply in_map_iff in C. destruct C as (y & C1 & C2). apply (Pt y); auto.
  - rewrite K. apply (wm_mobj m0 h W).
  - rewrite K. apply (wm_mkey m0 h W).
  - intros y mo Hy Hm. rewrite G. apply I in Hy. destruct Hy as [Hy| ->]; [eapply wm_ref; eauto|].
    rewrite Ma in Hm. destruct Hm.
  - intros y Hy. apply I in Hy. destruct Hy as [Hy| ->]; [eapply wm_nd; eauto|]. rewrite Ma. constructor.
  - intros y Hy. apply (ver_ge_key h h' _ K'). apply I in Hy.
    destruct Hy as [Hy| ->]; [eapply wm_sort; eauto|]. rewrite Ma. constructor.
  - intros mo l. rewrite V. apply (wm_vnd m0 h W).
  - intros mo l vo. rewrite V. intros Hl. rewrite (wm_act m0 h W mo l vo Hl). split.
    + intros (y & Y1 & Y2). exists y. split; auto. apply I. auto.
    + intros (y & Y1 & Y2 & Y3). apply I in Y1. destruct Y1 as [Y1| ->]; [eauto|].
      rewrite Ma in Y3. discriminate.
  - intros y Hy. rewrite (slot_code_key h h' y K'), Mm. apply I in Hy.
    destruct Hy as [Hy| ->]; [eapply wm_mem; eauto|]. unfold slot_code. rewrite Ma. congruence.
  - intros y Hy. apply I in Hy. destruct Hy as [Hy| ->]; [eapply wm_orig; eauto|].
    rewrite Or. apply (wm_mem0 m0 h W). auto.
  - intros s Hs. rewrite Mm. apply (wm_mem0 m0 h W). intros y Hy. apply Hs. apply I. auto.
  - intros m Hm. rewrite K in Hm. rewrite P. apply (wm_ver m0 h W m Hm).
  - intros y Hy. apply I in Hy. destruct Hy as [Hy| ->]; [pose proof (wm_fresh_v m0 h W y Hy); lia|lia].
  - intros m Hm. rewrite K in Hm. pose proof (wm_fresh_m m0 h W m Hm). lia.
Qed.

(** A new manager. *)
Lemma find_snoc : forall {A} (p : A -> bool) l x,
  find p (l ++ [x]) = match find p l with Some y => Some y | None => if p x then Some x else None end.
Proof.
  intros A p l x. induction l as [|a l IH]; cbn [find app]; auto. destruct (p a); auto.
Qed.

Lemma WM_new_man : forall m0 h h' m, WM m0 h ->
  h_vfns h' = h_vfns h -> h_mans h' = h_mans h ++ [m] -> h_pfs h' = h_pfs h -> h_mem h' = h_mem h ->
  h_nxt h < h_nxt h' -> mn_obj m = h_nxt h -> mn_vfns m = [] ->
  (exists i, h_pfs h (mn_pf m) = Some i /\ pf_ver i = pf_ver (mn_info m) /\ pf_ver i <> (-1)%Z) ->
  (forall y, In y (h_mans h) -> (mn_plug y, mn_pf y) <> (mn_plug m, mn_pf m)) -> WM m0 h'.
Proof.
  intros m0 h h' m W E K P Mm N Ob Ma Ve Ky.
  assert (Fr : forall x, x < h_nxt h -> get_man h' x = get_man h x).
  { intros x Hx. unfold get_man. rewrite K, find_snoc. destruct (find (man_is x) (h_mans h)); [reflexivity|].
    unfold man_is. rewrite Ob. destruct (h_nxt h =? x) eqn:Ee; [apply Nat.eqb_eq in Ee; lia|reflexivity]. }
  assert (Old : forall x y, get_man h x = Some y -> get_man h' x = Some y).
  { intros x y H. unfold get_man in *. rewrite K, find_snoc, H. reflexivity. }
  assert (Rf : forall v mo, In v (h_vfns h) -> In mo (vf_mans v) -> mo < h_nxt h).
  { intros v mo H1 H2. destruct (wm_ref m0 h W v mo H1 H2) as (y & G). apply get_man_obj in G.
    destruct G as [G1 G2]. pose proof (wm_fresh_m m0 h W y G1). lia. }
  assert (V : forall x l, vfns_of h' x = Some l -> (vfns_of h x = Some l /\ x < h_nxt h) \/ (x = h_nxt h /\ l = [])).
  { intros x l H. unfold vfns_of, get_man in *. rewrite K, find_snoc in H.
    destruct (find (man_is x) (h_mans h)) as [y|] eqn:F.
    - left. split; auto. apply (find_key_in _ _ _ _ _ (sel_man_is x)) in F. destruct F as [F1 F2].
      pose proof (wm_fresh_m m0 h W y F1). lia.
    - unfold man_is in H. destruct (mn_obj m =? x) eqn:Ee; [|discriminate]. apply Nat.eqb_eq in Ee.
      right. split; [congruence|]. cbn in H. congruence. }
  constructor.
  - rewrite E. apply (wm_vobj m0 h W).
  - rewrite E. apply (wm_vptr m0 h W).
  - rewrite K, map_app. cbn [map]. apply nodup_snoc; [apply (wm_mobj m0 h W)|].
    intros C. apply in_map_iff in C. destruct C as (y & C1 & C2). pose proof (wm_fresh_m m0 h W y C2). lia.
  - rewrite K, map_app. cbn [map]. apply nodup_snoc; [apply (wm_mkey m0 h W)|].
    intros C. apply in_map_iff in C. destruct C as (y & C1 & C2). apply (Ky y); auto.
  - intros y mo Hy Hm. rewrite E in Hy. rewrite Fr by eauto. eapply wm_ref; eauto.
  - intros y Hy. rewrite E in Hy. eapply wm_nd; eauto.
  - intros y Hy. rewrite E in Hy. pose proof (wm_sort m0 h W y Hy) as S.
    assert (Rm : forall mo, In mo (vf_mans y) -> man_ver h' mo = man_ver h mo).
    { intros mo H. unfold man_ver. rewrite Fr by eauto. reflexivity. }
    revert Rm. clear - S. induction S as [|a l Hs IH Hf]; intros Rm; constructor.
    + apply IH. intros mo H. apply Rm. cbn [In]. auto.
    + rewrite Forall_forall in *. intros x Hx. unfold ver_ge. rewrite !Rm by (cbn [In]; auto). apply Hf. auto.
  - intros mo l Hl. apply V in Hl. destruct Hl as [[H _]|[_ ->]]; [eapply wm_vnd; eauto|constructor].
  - intros mo l vo Hl. apply V in Hl. rewrite E. destruct Hl as [[H _]|[-> ->]].
    + apply (wm_act m0 h W mo l vo H).
    + split; [intros []|]. intros (v & V1 & V2 & V3).
      assert (h_nxt h < h_nxt h) by (apply (Rf v); auto; destruct (vf_mans v); [discriminate|]; injection V3 as ->; left; reflexivity).
      lia.
  - intros y Hy. rewrite E in Hy. rewrite Mm. rewrite <- (wm_mem m0 h W y Hy).
    unfold slot_code. destruct (vf_mans y) as [|mo r] eqn:Em; [reflexivity|].
    unfold man_pf. rewrite Fr; [reflexivity|]. apply (Rf y); auto. rewrite Em. left. reflexivity.
  - intros y Hy. rewrite E in Hy. eapply wm_orig; eauto.
  - intros s Hs. rewrite Mm. rewrite E in Hs. apply (wm_mem0 m0 h W s Hs).
  - intros y Hy. rewrite K, in_app_iff in Hy. rewrite P. destruct Hy as [Hy|[->|[]]]; [eapply wm_ver; eauto|exact Ve].
  - intros y Hy. rewrite E in Hy. pose proof (wm_fresh_v m0 h W y Hy). lia.
  - intros y Hy. rewrite K, in_app_iff in Hy. destruct Hy as [Hy|[->|[]]]; [pose proof (wm_fresh_m m0 h W y Hy); lia|lia].
Qed.

(** Erasing a manager that no vfnptr uses. *)
Lemma find_del_man : forall o x l, NoDup (map mn_obj l) ->
  find (man_is x) (del_first (man_is o) l) = if x =? o then None else find (man_is x) l.
Proof.
  intros o x l N. destruct (x =? o) eqn:E.
  - apply Nat.eqb_eq in E. subst x. apply (find_key_none _ mn_obj o); [apply sel_man_is|].
    intros y Hy. apply (in_del_first _ mn_obj o) in Hy; auto using sel_man_is. tauto.
  - apply Nat.eqb_neq in E. destruct (find (man_is x) l) as [y|] eqn:F.
    + apply (find_key _ mn_obj x) in F; auto using sel_man_is.
      apply (find_key _ mn_obj x); auto using sel_man_is. { apply nodup_del_first. auto. }
      destruct F as [F1 F2]. split; auto. apply (in_del_first _ mn_obj o); auto using sel_man_is.
      split; auto. congruence.
    + apply (find_key_none _ mn_obj x); [apply sel_man_is|]. intros y Hy.
      apply in_del_first_weak in Hy. revert y Hy. apply (find_key_none (man_is x) mn_obj x); auto. apply sel_man_is.
Qed.

Lemma WM_erase_man : forall m0 h o, WM m0 h ->
  (forall v, In v (h_vfns h) -> ~ In o (vf_mans v)) ->
  WM m0 (set_mans h (del_first (man_is o) (h_mans h))).
Proof.
  intros m0 h o W Hn. set (h' := set_mans _ _).
  assert (G : forall x, get_man h' x = if x =? o then None else get_man h x).
  { intros x. unfold get_man. cbn [h_mans h' set_mans]. apply find_del_man. apply (wm_mobj m0 h W). }
  assert (G' : forall v mo, In v (h_vfns h) -> In mo (vf_mans v) -> get_man h' mo = get_man h mo).
  { intros v mo H1 H2. rewrite G. destruct (mo =? o) eqn:E; [|reflexivity]. apply Nat.eqb_eq in E. subst mo.
    exfalso. eapply Hn; eauto. }
  constructor.
  - apply (wm_vobj m0 h W).
  - apply (wm_vptr m0 h W).
  - apply nodup_del_first. apply (wm_mobj m0 h W).
  - apply nodup_del_first. apply (wm_mkey m0 h W).
  - intros v mo H1 H2. rewrite (G' v mo H1 H2). eapply wm_ref; eauto.
  - apply (wm_nd m0 h W).
  - intros v Hv. change (h_vfns h') with (h_vfns h) in Hv. pose proof (wm_sort m0 h W v Hv) as S.
    assert (Rm : forall mo, In mo (vf_mans v) -> man_ver h' mo = man_ver h mo).
    { intros mo H. unfold man_ver. rewrite (G' v mo Hv H). reflexivity. }
    revert Rm. clear - S. induction S as [|a l Hs IH Hf]; intros Rm; constructor.
    + apply IH. intros mo H. apply Rm. cbn [In]. auto.
    + rewrite Forall_forall in *. intros x Hx. unfold ver_ge. rewrite !Rm by (cbn [In]; auto). apply Hf. auto.
  - intros mo l Hl. unfold vfns_of in Hl. rewrite G in Hl. destruct (mo =? o); [discriminate|].
    eapply wm_vnd; eauto.
  - intros mo l vo Hl. unfold vfns_of in Hl. rewrite G in Hl. destruct (mo =? o); [discriminate|].
    apply (wm_act m0 h W mo l vo Hl).
  - intros v Hv. change (h_vfns h') with (h_vfns h) in Hv. change (h_mem h') with (h_mem h).
    rewrite <- (wm_mem m0 h W v Hv). unfold slot_code. destruct (vf_mans v) as [|mo r] eqn:Em; [reflexivity|].
    unfold man_pf. rewrite (G' v mo Hv); [reflexivity|]. rewrite Em. left. reflexivity.
  - apply (wm_orig m0 h W).
  - apply (wm_mem0 m0 h W).
  - intros m Hm. apply in_del_first_weak in Hm. apply (wm_ver m0 h W m Hm).
  - apply (wm_fresh_v m0 h W).
  - intros m Hm. apply in_del_first_weak in Hm. apply (wm_fresh_m m0 h W m Hm).
Qed.

(** ** ms_HI and the Register balance *)
Lemma tr_more_refl : forall P h, tr_more P h h.
Proof. intros P h. exists []. split; [reflexivity|constructor]. Qed.
Lemma tr_more_trans : forall P a b c, tr_more P a b -> tr_more P b c -> tr_more P a c.
Proof.
  intros P a b c (l1 & E1 & F1) (l2 & E2 & F2). exists (l2 ++ l1). split.
  - rewrite E2, E1, app_assoc. reflexivity.
  - apply Forall_app. auto.
Qed.
Lemma tr_more_eq : forall P h h', h_tr h' = h_tr h -> tr_more P h h'.
Proof. intros P h h' E. exists []. split; [exact E|constructor]. Qed.
Lemma tr_more_one : forall (P : obs -> Prop) h h' o, h_tr h' = o :: h_tr h -> P o -> tr_more P h h'.
Proof. intros P h h' o E H. exists [o]. split; [exact E|]. constructor; auto. Qed.

Lemma mstep_refl : forall h, mstep h h.
Proof. intros h. constructor; auto using tr_more_refl. Qed.
Lemma mstep_trans : forall a b c, mstep a b -> mstep b c -> mstep a c.
Proof. intros a b c [] []. constructor; auto. eapply tr_more_trans; eauto. Qed.

Lemma regs_app : forall o a b, regs o (a ++ b) = regs o a + regs o b.
Proof. intros o a b. induction a as [|x a IH]; cbn [app regs]; auto. destruct x; rewrite ?IH; lia. Qed.
Lemma unregs_app : forall o a b, unregs o (a ++ b) = unregs o a + unregs o b.
Proof. intros o a b. induction a as [|x a IH]; cbn [app unregs]; auto. destruct x; rewrite ?IH; lia. Qed.
Lemma deleted_app : forall a b, deleted (a ++ b) = deleted a ++ deleted b.
Proof. intros a b. induction a as [|x a IH]; cbn [app deleted]; auto. destruct x; rewrite ?IH; reflexivity. Qed.

Lemma WS_same : forall h h', h_mans h' = h_mans h -> h_mshi h' = h_mshi h -> WS h -> WS h'.
Proof.
  intros h h' K S [A B C].
  assert (G : forall x, get_man h' x = get_man h x) by (intros x; unfold get_man; rewrite K; reflexivity).
  assert (V : forall x, vfns_of h' x = vfns_of h x) by (intros x; unfold vfns_of; rewrite G; reflexivity).
  assert (P : forall x, man_pf h' x = man_pf h x) by (intros x; unfold man_pf; rewrite G; reflexivity).
  constructor.
  - intros o1 o2 f. rewrite !P. apply A.
  - intros o. unfold active. rewrite V, P, S. apply B.
  - intros f o. unfold active. rewrite V, P, S. apply C.
Qed.

Lemma act_num_le : forall h o, act_num h o <= 1.
Proof. intros h o. unfold act_num. destruct (vfns_of h o) as [[|]|]; auto. Qed.
Lemma altern_cons : forall x t, altern t -> (forall o, unregs o (x :: t) <= regs o (x :: t) <= S (unregs o (x :: t))) -> altern (x :: t).
Proof.
  intros x t A B o [|y t1] t2 E; cbn [app] in E.
  - subst t2. apply B.
  - injection E as _ E. apply (A o t1 t2 E).
Qed.
Lemma altern_app : forall l t, altern t -> (forall o, regs o l = 0 /\ unregs o l = 0) -> altern (l ++ t).
Proof.
  intros l t A. induction l as [|x l IH]; intros R; [exact A|]. cbn [app].
  assert (R' : forall o, regs o l = 0 /\ unregs o l = 0).
  { intros o. destruct (R o) as [R1 R2]. destruct x; cbn [regs unregs] in R1, R2; auto; split; lia. }
  apply altern_cons; [exact (IH R')|]. intros o. destruct (R o) as [R1 R2].
  change (x :: l ++ t) with ((x :: l) ++ t). rewrite regs_app, unregs_app, R1, R2. cbn [plus]. apply (A o [] t eq_refl).
Qed.
Lemma WR_cons : forall h h' x, WR h -> h_tr h' = x :: h_tr h ->
  (forall o, regs o (x :: h_tr h) = unregs o (x :: h_tr h) + act_num h' o) -> WR h'.
Proof.
  intros h h' x [_ A] E B. split; rewrite E; [exact B|]. apply altern_cons; [exact A|]. intros o. rewrite (B o).
  pose proof (act_num_le h' o). lia.
Qed.

Lemma WR_same : forall h h', h_mans h' = h_mans h ->
  (exists l, h_tr h' = l ++ h_tr h /\ forall o, regs o l = 0 /\ unregs o l = 0) -> WR h -> WR h'.
Proof.
  intros h h' K (l & E & R) [H A]. split; [|rewrite E; apply altern_app; auto].
  intros o. rewrite E, regs_app, unregs_app, (H o). destruct (R o) as [-> ->]. unfold act_num, vfns_of, get_man. rewrite K. reflexivity.
Qed.

Lemma WD_same : forall h h', h_delegs h' = h_delegs h -> h_nxt h <= h_nxt h' ->
  (exists l, h_tr h' = l ++ h_tr h /\ deleted l = []) -> WD h -> WD h'.
Proof.
  intros h h' D N (l & E & R) [A B]. unfold WD. rewrite E, deleted_app, R, D. cbn [app]. split; auto.
  intros n Hn. specialize (B n Hn). lia.
Qed.

(** Changes that do not concern managers and delegates. *)
Lemma mstep_same : forall h h' l, h_mans h' = h_mans h -> h_mshi h' = h_mshi h ->
  h_delegs h' = h_delegs h -> h_nxt h <= h_nxt h' -> h_tr h' = l ++ h_tr h ->
  Forall hook_obs l -> (forall o, regs o l = 0 /\ unregs o l = 0) -> deleted l = [] -> mstep h h'.
Proof.
  intros h h' l K S D N E F R Dl. constructor.
  - apply WS_same; auto.
  - apply WR_same; auto. eauto.
  - apply WD_same; auto. eauto.
  - exists l. auto.
Qed.

Lemma mstep_same0 : forall h h', h_mans h' = h_mans h -> h_mshi h' = h_mshi h ->
  h_delegs h' = h_delegs h -> h_nxt h <= h_nxt h' -> h_tr h' = h_tr h -> mstep h h'.
Proof. intros h h' K S D N E. apply (mstep_same h h' []); auto. Qed.

Lemma mstep_patch : forall h s c, mstep h (patch h s c).
Proof.
  intros h s c. apply (mstep_same h _ [OPatch s c]); try reflexivity.
  - constructor; [exact I|constructor].
  - auto.
Qed.

Lemma zupd_eq : forall {A} (f : Z -> A) k v, zupd f k v k = v.
Proof. intros. unfold zupd. rewrite Z.eqb_refl. reflexivity. Qed.
Lemma zupd_neq : forall {A} (f : Z -> A) k v x, x <> k -> zupd f k v x = f x.
Proof. intros. unfold zupd. destruct (Z.eqb x k) eqn:E; auto. apply Z.eqb_eq in E. congruence. Qed.

Lemma incr_ref_mstep : forall h o vo m h', get_man h o = Some m -> pf_known h m ->
  incr_ref h o vo = Some h' -> mstep h h'.
Proof.
  intros h o vo m h' G K E. destruct (incr_ref_spec h o vo m G K) as (h1 & E1 & M & V & T).
  rewrite E in E1. injection E1 as <-.
  assert (Po : man_pf h o = Some (mn_pf m)) by (unfold man_pf; rewrite G; reflexivity).
  assert (Vo : vfns_of h o = Some (mn_vfns m)) by (unfold vfns_of; rewrite G; reflexivity).
  pose proof (fun x => mu_pf h h' x (mu_key h h' M)) as P.
  assert (Ao : forall x, active h' x <-> active h x \/ x = o).
  { intros x. unfold active. rewrite V. destruct (x =? o) eqn:Ex.
    - apply Nat.eqb_eq in Ex. split; auto. intros _. destruct (mn_vfns m); cbn [app]; eauto.
    - apply Nat.eqb_neq in Ex. tauto. }
  destruct (length (mn_vfns m) =? 0) eqn:L; destruct T as [T1 T2].
  - apply Nat.eqb_eq in L. assert (El : mn_vfns m = []) by (destruct (mn_vfns m); [reflexivity|discriminate]).
    constructor.
    + intros [A B C]. constructor.
      * intros o1 o2 f. rewrite !P. apply A.
      * intros x Hx. rewrite P, T1. apply Ao in Hx. destruct Hx as [Hx| ->].
        { destruct (B x Hx) as (f & F1 & F2). exists f. split; auto.
          destruct (Z.eq_dec f (mn_pf m)) as [->|n]; [|rewrite zupd_neq; auto].
          rewrite zupd_eq. f_equal. eapply A; eauto. }
        exists (mn_pf m). split; auto. apply zupd_eq.
      * intros f x. rewrite P, T1. destruct (Z.eq_dec f (mn_pf m)) as [->|n].
        { rewrite zupd_eq. intros Hx. injection Hx as <-. split; auto. apply Ao. auto. }
        rewrite zupd_neq by auto. intros Hx. destruct (C f x Hx). split; auto. apply Ao. auto.
    + intros H. apply (WR_cons h h' _ H T2). destruct H as [H _]. intros x. cbn [regs unregs]. rewrite (H x). unfold act_num. rewrite V.
      rewrite (Nat.eqb_sym o x). destruct (x =? o) eqn:Ex.
      * apply Nat.eqb_eq in Ex. subst x. rewrite Vo, El. cbn [app]. lia.
      * lia.
    + apply WD_same; [apply (mu_delegs _ _ M)|rewrite (mu_nxt _ _ M); lia|]. eexists [_]. split; [exact T2|reflexivity].
    + eapply tr_more_one; eauto. exact I.
  - apply Nat.eqb_neq in L. destruct (mn_vfns m) as [|a l] eqn:El; [exfalso; apply L; reflexivity|].
    constructor.
    + intros [A B C]. constructor.
      * intros o1 o2 f. rewrite !P. apply A.
      * intros x Hx. rewrite P, T1. apply Ao in Hx. apply B. destruct Hx as [Hx| ->]; auto.
        exists a, l. auto.
      * intros f x. rewrite P, T1. intros Hx. destruct (C f x Hx). split; auto. apply Ao. auto.
    + intros [H A0]. split; [|rewrite T2; exact A0]. intros x. rewrite T2. rewrite (H x). unfold act_num. rewrite V.
      destruct (x =? o) eqn:Ex; [|lia].
      apply Nat.eqb_eq in Ex. subst x. rewrite Vo. reflexivity.
    + apply WD_same; [apply (mu_delegs _ _ M)|rewrite (mu_nxt _ _ M); lia|]. exists []. split; [exact T2|reflexivity].
    + apply tr_more_eq. auto.
Qed.

Lemma decr_ref_mstep : forall h o vo m h', get_man h o = Some m -> pf_known h m -> mn_vfns m <> [] ->
  decr_ref h o vo = Some h' -> mstep h h'.
Proof.
  intros h o vo m h' G K Ne E. destruct (decr_ref_spec h o vo m G K) as (h1 & E1 & M & V & T).
  rewrite E in E1. injection E1 as <-.
  assert (Po : man_pf h o = Some (mn_pf m)) by (unfold man_pf; rewrite G; reflexivity).
  assert (Vo : vfns_of h o = Some (mn_vfns m)) by (unfold vfns_of; rewrite G; reflexivity).
  pose proof (fun x => mu_pf h h' x (mu_key h h' M)) as P.
  destruct (mn_vfns m) as [|a0 l0] eqn:El0; [congruence|]. rewrite <- El0 in *.
  set (l := del_first (Nat.eqb vo) (mn_vfns m)) in *.
  destruct (length l =? 0) eqn:L; destruct T as [T1 T2].
  - apply Nat.eqb_eq in L. assert (El : l = []) by (destruct l; [reflexivity|discriminate]).
    assert (Ao : forall x, active h' x <-> active h x /\ x <> o).
    { intros x. unfold active. rewrite V. destruct (x =? o) eqn:Ex.
      - apply Nat.eqb_eq in Ex. rewrite El. split; [intros (? & ? & ?); discriminate|tauto].
      - apply Nat.eqb_neq in Ex. tauto. }
    constructor.
    + intros [A B C]. constructor.
      * intros o1 o2 f. rewrite !P. apply A.
      * intros x Hx. rewrite P, T1. apply Ao in Hx. destruct Hx as [Hx Hn].
        destruct (B x Hx) as (f & F1 & F2). exists f. split; auto.
        rewrite zupd_neq; auto. intros ->. apply Hn. eapply A; eauto.
      * intros f x. rewrite P, T1. destruct (Z.eq_dec f (mn_pf m)) as [->|n].
        { rewrite zupd_eq. discriminate. }
        rewrite zupd_neq by auto. intros Hx. destruct (C f x Hx) as [C1 C2]. split; auto. apply Ao. split; auto.
        intros ->. rewrite Po in C1. congruence.
    + intros H. apply (WR_cons h h' _ H T2). destruct H as [H _]. intros x. cbn [regs unregs]. rewrite (H x). unfold act_num. rewrite V.
      rewrite (Nat.eqb_sym o x). destruct (x =? o) eqn:Ex.
      * apply Nat.eqb_eq in Ex. subst x. rewrite Vo, El, El0. lia.
      * lia.
    + apply WD_same; [apply (mu_delegs _ _ M)|rewrite (mu_nxt _ _ M); lia|]. eexists [_]. split; [exact T2|reflexivity].
    + eapply tr_more_one; eauto. exact I.
  - apply Nat.eqb_neq in L. destruct l as [|a r] eqn:El; [exfalso; apply L; reflexivity|].
    assert (Ao : forall x, active h' x <-> active h x).
    { intros x. unfold active. rewrite V. destruct (x =? o) eqn:Ex; [|tauto].
      apply Nat.eqb_eq in Ex. subst x. rewrite Vo, El0. split; intros; eauto. }
    constructor.
    + intros [A B C]. constructor.
      * intros o1 o2 f. rewrite !P. apply A.
      * intros x Hx. rewrite P, T1. apply B. apply Ao. auto.
      * intros f x. rewrite P, T1. intros Hx. destruct (C f x Hx). split; auto. apply Ao. auto.
    + intros [H A0]. split; [|rewrite T2; exact A0]. intros x. rewrite T2. rewrite (H x). unfold act_num. rewrite V.
      destruct (x =? o) eqn:Ex; [|lia].
      apply Nat.eqb_eq in Ex. subst x. rewrite Vo, El0. reflexivity.
    + apply WD_same; [apply (mu_delegs _ _ M)|rewrite (mu_nxt _ _ M); lia|]. exists []. split; [exact T2|reflexivity].
    + apply tr_more_eq. auto.
Qed.

(** ** AddHookMan *)
Lemma vsk_upd_mans : forall o l vs, map vsk (upd_first (vfn_is o) (set_vf_mans l) vs) = map vsk vs.
Proof. intros o l vs. apply map_upd_first_same. intros x _ _. reflexivity. Qed.

Lemma upd_first_self : forall {A} (p : A -> bool) f l x, find p l = Some x -> f x = x -> upd_first p f l = l.
Proof.
  intros A p f l x. induction l as [|a l IH]; cbn [find upd_first]; intros H E; auto.
  destruct (p a); [injection H as ->; congruence|]. rewrite IH; auto.
Qed.

Lemma set_vf_mans_self : forall v, set_vf_mans (vf_mans v) v = v.
Proof. intros []. reflexivity. Qed.

Lemma wm_vfns_get : forall m0 h mo v, WM m0 h -> In v (h_vfns h) -> In mo (vf_mans v) ->
  exists m, get_man h mo = Some m /\ In m (h_mans h) /\ pf_known h m /\ vfns_of h mo = Some (mn_vfns m).
Proof.
  intros m0 h mo v W H1 H2. destruct (wm_ref m0 h W v mo H1 H2) as (m & G). exists m.
  destruct (get_man_obj h mo m G) as [G1 G2]. split; auto. split; auto.
  split; [eapply wm_known; eauto|]. unfold vfns_of. rewrite G. reflexivity.
Qed.

(** [o] put into a list of managers: at the end of its version group. *)
Definition man_inserted (h : hs) (o : nat) (l l' : list nat) : Prop :=
  (In o l /\ l' = l) \/
  (~ In o l /\ exists l1 l2 ver, l = l1 ++ l2 /\ l' = l1 ++ o :: l2 /\ man_ver h o = Some ver /\
     (forall x, In x l1 -> exists v, man_ver h x = Some v /\ (ver <= v)%Z) /\
     (forall x, In x l2 -> exists v, man_ver h x = Some v /\ (v < ver)%Z)).

Lemma insert_man_split : forall h o ver l l', insert_man h o ver l = Some l' ->
  (forall x, In x l -> exists v, man_ver h x = Some v) -> StronglySorted (ver_ge h) l ->
  exists l1 l2, l = l1 ++ l2 /\ l' = l1 ++ o :: l2 /\
    (forall x, In x l1 -> exists v, man_ver h x = Some v /\ (ver <= v)%Z) /\
    (forall x, In x l2 -> exists v, man_ver h x = Some v /\ (v < ver)%Z).
Proof.
  intros h o ver l. induction l as [|a l IH]; intros l' E Hl S; cbn [insert_man] in E.
  - injection E as <-. exists [], []. split; [reflexivity|]. split; [reflexivity|]. split; intros x [].
  - destruct (Hl a (or_introl eq_refl)) as (va & Ea). rewrite Ea in E. apply StronglySorted_inv in S. destruct S as [S1 S2].
    destruct (va <? ver)%Z eqn:L.
    + injection E as <-. apply Z.ltb_lt in L. exists [], (a :: l). split; [reflexivity|]. split; [reflexivity|]. split; [intros x []|].
      intros x [<-|Hx]; [eauto|]. destruct (Hl x (or_intror Hx)) as (vx & Ex). exists vx. split; auto.
      rewrite Forall_forall in S2. specialize (S2 x Hx). unfold ver_ge in S2. rewrite Ea, Ex in S2. lia.
    + apply Z.ltb_ge in L. destruct (insert_man h o ver l) as [r|] eqn:Er; [|discriminate]. injection E as <-.
      destruct (IH r eq_refl (fun x Hx => Hl x (or_intror Hx)) S1) as (l1 & l2 & -> & -> & A & B).
      exists (a :: l1), l2. split; [reflexivity|]. split; [reflexivity|]. split; [|exact B].
      intros x [<-|Hx]; eauto.
Qed.

Lemma add_hookman_spec : forall m0 h vo o v m, WM m0 h -> get_vfn h vo = Some v -> get_man h o = Some m ->
  exists h' l', add_hookman h vo o = Some h' /\ WM m0 h' /\ hooks_same h h' /\
    map mkey4 (h_mans h') = map mkey4 (h_mans h) /\ mstep h h' /\
    h_vfns h' = upd_first (vfn_is vo) (set_vf_mans l') (h_vfns h) /\
    ((forall x, In x l' <-> x = o \/ In x (vf_mans v)) /\ man_inserted h o (vf_mans v) l') /\
    (* which manager is in front: the new one only if its version is higher *)
    (hd_error l' = hd_error (vf_mans v) /\ vf_mans v <> [] \/
     hd_error l' = Some o /\ forall x vx, In x (vf_mans v) -> man_ver h x = Some vx -> (vx < pf_ver (mn_info m))%Z).
Proof.
  intros m0 h vo o v m W Gv Gm.
  destruct (get_vfn_obj h vo v Gv) as [Hv Ov]. destruct (get_man_obj h o m Gm) as [Hm Om].
  destruct (wm_ver m0 h W m Hm) as (i & Hi1 & Hi2 & Hi3).
  assert (Kn : pf_known h m) by (eapply wm_known; eauto).
  unfold add_hookman. rewrite Gv, Gm.
  destruct (Z.eqb (pf_ver (mn_info m)) (-1)) eqn:Ev; [apply Z.eqb_eq in Ev; congruence|].
  destruct (memb o (vf_mans v)) eqn:Mb.
  { apply memb_in in Mb. exists h, (vf_mans v). split; [reflexivity|]. split; [exact W|].
    split; [constructor; reflexivity|]. split; [reflexivity|]. split; [apply mstep_refl|].
    split; [symmetry; eapply upd_first_self; [exact Gv|apply set_vf_mans_self]|].
    split; [split; [intros x; split; [auto|intros [->|H]; auto]|left; auto]|]. left. split; auto.
    intros C. rewrite C in Mb. destruct Mb. }
  apply memb_false in Mb.
  assert (Vo : man_ver h o = Some (pf_ver (mn_info m))) by (unfold man_ver; rewrite Gm; reflexivity).
  assert (Vl : forall x, In x (vf_mans v) -> exists y, man_ver h x = Some y).
  { intros x Hx. destruct (wm_ref m0 h W v x Hv Hx) as (mx & Gx). unfold man_ver. rewrite Gx. eauto. }
  destruct (insert_man_spec h o (pf_ver (mn_info m)) (vf_mans v) Vl Vo (wm_sort m0 h W v Hv))
    as (l' & R & I & S & N & Hd).
  assert (MI : man_inserted h o (vf_mans v) l').
  { right. split; [exact Mb|]. destruct (insert_man_split h o _ _ _ R Vl (wm_sort m0 h W v Hv)) as (l1 & l2 & A1 & A2 & A3 & A4).
    exists l1, l2, (pf_ver (mn_info m)). auto. }
  rewrite R. subst vo.
  specialize (N (wm_nd m0 h W v Hv) Mb).
  assert (Rf : forall mo, In mo l' -> exists m, get_man h mo = Some m).
  { intros mo Hmo. apply I in Hmo. destruct Hmo as [->|Hmo]; [eauto|eapply wm_ref; eauto]. }
  destruct l' as [|f rest]; [exfalso; apply (proj2 (I o)); auto|].
  set (h1 := set_vfns h _).
  assert (M1 : map mkey4 (h_mans h1) = map mkey4 (h_mans h)) by reflexivity.
  destruct (f =? o) eqn:Ef.
  - apply Nat.eqb_eq in Ef. subst f.
    assert (Er : rest = vf_mans v).
    { destruct Hd as [[Hd _]|[Hd (x & vx & Hx & _)]].
      - injection Hd. auto.
      - exfalso. cbn [hd_error] in Hd. rewrite Hx in Hd. injection Hd as <-.
        apply Mb. destruct (vf_mans v); [discriminate|]. injection Hx as ->. left. reflexivity. }
    subst rest.
    assert (Hlt : forall x vx, In x (vf_mans v) -> man_ver h x = Some vx -> (vx < pf_ver (mn_info m))%Z).
    { intros x vx Hx Hvx. destruct Hd as [[_ Hd]|[Hd _]].
      - destruct (vf_mans v) as [|a r] eqn:Ea; [destruct Hx|].
        destruct (Vl a (or_introl eq_refl)) as (va & Hva).
        pose proof (Hd a va eq_refl Hva) as L.
        destruct Hx as [->|Hx]; [congruence|].
        pose proof (wm_sort m0 h W v Hv) as So. rewrite Ea in So. apply StronglySorted_inv in So.
        destruct So as [_ So]. rewrite Forall_forall in So. specialize (So x Hx). unfold ver_ge in So.
        rewrite Hva, Hvx in So. lia.
      - exfalso. apply Mb. destruct (vf_mans v); [discriminate|]. injection Hd as ->. left. reflexivity. }
    destruct (incr_ref_spec h1 o (vf_obj v) m Gm Kn) as (h2 & E2 & M2 & V2 & _). rewrite E2.
    pose proof (incr_ref_mstep h1 o (vf_obj v) m h2 Gm Kn E2) as P2.
    assert (P1 : mstep h h1) by (apply mstep_same0; auto).
    assert (Hs3 : exists h3, (match vf_mans v with second :: _ => decr_ref h2 second (vf_obj v) | [] => Some h2 end) = Some h3 /\
        mans_upd h2 h3 /\ mstep h2 h3 /\
        forall x lx', vfns_of h3 x = Some lx' -> NoDup lx' /\
          forall y, In y lx' <-> (y = vf_obj v /\ x = o) \/ (y <> vf_obj v /\ exists lx, vfns_of h x = Some lx /\ In y lx)).
    { assert (Hno : vfns_of h o = Some (mn_vfns m)) by (unfold vfns_of; rewrite Gm; reflexivity).
      assert (NIo : ~ In (vf_obj v) (mn_vfns m)).
      { intros C. apply (wm_act m0 h W o _ _ Hno) in C. destruct C as (y & Y1 & Y2 & Y3).
        assert (y = v) by (eapply (nodup_key_inj vf_obj); eauto; apply (wm_vobj m0 h W)). subst y.
        apply Mb. destruct (vf_mans v); [discriminate|]. injection Y3 as ->. left. reflexivity. }
      destruct (vf_mans v) as [|sec r] eqn:Ea.
      - exists h2. split; [reflexivity|]. split; [apply mans_upd_refl|]. split; [apply mstep_refl|].
        intros x lx' Hx. rewrite V2 in Hx. change (vfns_of h1 x) with (vfns_of h x) in Hx. destruct (x =? o) eqn:Ex.
        + apply Nat.eqb_eq in Ex. subst x. injection Hx as <-. split.
          { apply nodup_snoc; auto. eapply wm_vnd; eauto. }
          intros y. rewrite in_app_iff. cbn [In]. split.
          * intros [H|[<-|[]]]; auto. right. split; [intros ->; auto|]. eauto.
          * intros [[-> _]|(Hn & lx & L1 & L2)]; auto. left. congruence.
        + apply Nat.eqb_neq in Ex. split; [eapply wm_vnd; eauto|]. intros y. split.
          * intros H. right. split; eauto. intros ->. apply (wm_act m0 h W x _ _ Hx) in H.
            destruct H as (y & Y1 & Y2 & Y3).
            assert (y = v) by (eapply (nodup_key_inj vf_obj); eauto; apply (wm_vobj m0 h W)). subst y.
            rewrite Ea in Y3. discriminate.
          * intros [[_ C]|(Hn & lx & L1 & L2)]; [congruence|]. congruence.
      - assert (Hsec : In sec (vf_mans v)) by (rewrite Ea; left; reflexivity).
        destruct (wm_vfns_get m0 h sec v W Hv Hsec) as (ms & G1 & G2 & G3 & G4).
        assert (Hso : sec <> o). { intros ->. apply Mb. left. reflexivity. }
        destruct (key_get_ex h1 h2 sec ms (mu_key h1 h2 M2) G1) as (ms2 & G5 & G6).
        assert (G7 : vfns_of h2 sec = vfns_of h1 sec).
        { rewrite V2. destruct (sec =? o) eqn:Ex; [apply Nat.eqb_eq in Ex; congruence|reflexivity]. }
        assert (G8 : mn_vfns ms2 = mn_vfns ms).
        { unfold vfns_of in G7. rewrite G5 in G7. change (get_man h1 sec) with (get_man h sec) in G7.
          rewrite G1 in G7. cbn in G7. congruence. }
        assert (G9 : pf_known h2 ms2).
        { destruct G3 as (i3 & I1 & I2). exists i3. rewrite (mu_pfs h1 h2 M2). unfold mkey4 in G6.
          split; [|congruence]. replace (mn_pf ms2) with (mn_pf ms) by congruence. exact I1. }
        assert (Iv : In (vf_obj v) (mn_vfns ms)).
        { apply (wm_act m0 h W sec _ _ G4). exists v. split; auto. split; auto. rewrite Ea. reflexivity. }
        destruct (decr_ref_spec h2 sec (vf_obj v) ms2 G5 G9) as (h3 & E3 & M3 & V3 & _).
        exists h3. split; [exact E3|]. split; [exact M3|]. split.
        { eapply decr_ref_mstep; eauto. rewrite G8. intros C. rewrite C in Iv. destruct Iv. }
        intros x lx' Hx. rewrite V3, G8 in Hx. destruct (x =? sec) eqn:Ex.
        + apply Nat.eqb_eq in Ex. subst x. injection Hx as <-.
          pose proof (wm_vnd m0 h W sec _ G4) as Nd. split; [apply nodup_del_first_id; auto|].
          intros y. rewrite in_del_nat by auto. split.
          * intros [H1 H2]. right. split; eauto.
          * intros [[_ C]|(Hn & lx & L1 & L2)]; [congruence|]. split; auto. congruence.
        + apply Nat.eqb_neq in Ex. rewrite V2 in Hx. destruct (x =? o) eqn:Exo.
          * apply Nat.eqb_eq in Exo. subst x. injection Hx as <-. split.
            { apply nodup_snoc; auto. eapply wm_vnd; eauto. }
            intros y. rewrite in_app_iff. cbn [In]. split.
            { intros [H|[<-|[]]]; auto. right. split; [intros ->; auto|]. eauto. }
            { intros [[-> _]|(Hn & lx & L1 & L2)]; auto. left. congruence. }
          * apply Nat.eqb_neq in Exo. change (vfns_of h1 x) with (vfns_of h x) in Hx.
            split; [eapply wm_vnd; eauto|]. intros y. split.
            { intros H. right. split; eauto. intros ->. apply (wm_act m0 h W x _ _ Hx) in H.
              destruct H as (y & Y1 & Y2 & Y3).
              assert (y = v) by (eapply (nodup_key_inj vf_obj); eauto; apply (wm_vobj m0 h W)). subst y.
              rewrite Ea in Y3. injection Y3 as ->. congruence. }
            { intros [[_ C]|(Hn & lx & L1 & L2)]; congruence. } }
    destruct Hs3 as (h3 & E3 & M3 & P3 & V3). rewrite E3.
    exists (patch h3 (vf_ptr v) (CHook (mn_pf m))), (o :: vf_mans v).
    split; [reflexivity|].
    assert (Ev3 : h_vfns (patch h3 (vf_ptr v) (CHook (mn_pf m))) =
                  upd_first (vfn_is (vf_obj v)) (set_vf_mans (o :: vf_mans v)) (h_vfns h)).
    { cbn [patch emit set_tr set_mem h_vfns]. rewrite (mu_vfns _ _ M3), (mu_vfns _ _ M2). reflexivity. }
    assert (Ek3 : map mkey4 (h_mans (patch h3 (vf_ptr v) (CHook (mn_pf m)))) = map mkey4 (h_mans h)).
    { cbn [patch emit set_tr set_mem h_mans]. rewrite (mu_key _ _ M3), (mu_key _ _ M2). reflexivity. }
    split; [|split; [|split; [|split; [|split; [|split]]]]].
    + eapply WM_change; try eassumption.
      * cbn [patch emit set_tr set_mem h_pfs]. rewrite (mu_pfs _ _ M3), (mu_pfs _ _ M2). reflexivity.
      * cbn [patch emit set_tr set_mem h_nxt]. rewrite (mu_nxt _ _ M3), (mu_nxt _ _ M2). reflexivity.
      * intros s Hs. cbn [patch emit set_tr set_mem h_mem]. rewrite zupd_neq by auto.
        rewrite (mu_mem _ _ M3), (mu_mem _ _ M2). reflexivity.
      * cbn [patch emit set_tr set_mem h_mem]. rewrite zupd_eq. unfold slot_code. cbn [vf_mans set_vf_mans].
        unfold man_pf. rewrite Gm. reflexivity.
      * intros x lx' Hx. destruct (V3 x lx' Hx) as [A B]. split; auto. intros y. rewrite B. cbn [hd_error].
        split; (intros [[-> C]|C]; [left|right]; [split; congruence|exact C]).
    + constructor; cbn [patch emit set_tr set_mem h_pfs h_ids h_vt h_delegs h_thunks h_nxt];
        rewrite ?(mu_pfs _ _ M3), ?(mu_pfs _ _ M2), ?(mu_ids _ _ M3), ?(mu_ids _ _ M2), ?(mu_vt _ _ M3), ?(mu_vt _ _ M2),
          ?(mu_delegs _ _ M3), ?(mu_delegs _ _ M2), ?(mu_thunks _ _ M3), ?(mu_thunks _ _ M2), ?(mu_nxt _ _ M3), ?(mu_nxt _ _ M2);
        try reflexivity. rewrite Ev3. apply vsk_upd_mans.
    + exact Ek3.
    + eapply mstep_trans; [exact P1|]. eapply mstep_trans; [exact P2|]. eapply mstep_trans; [exact P3|apply mstep_patch].
    + exact Ev3.
    + split; [exact I|exact MI].
    + right. split; [reflexivity|exact Hlt].
  - apply Nat.eqb_neq in Ef. destruct Hd as [[Hd _]|[Hd (x & vx & Hx & Hd2)]]; [injection Hd as ->; congruence|].
    exists h1, (f :: rest). split; [reflexivity|]. split; [|split; [|split; [|split; [|split; [|split]]]]].
    + eapply (WM_change m0 h h1 v (f :: rest)); auto.
      * cbn [hd_error] in Hd.
        change (h_mem h1) with (h_mem h). rewrite <- (wm_mem m0 h W v Hv). unfold slot_code. cbn [vf_mans set_vf_mans].
        destruct (vf_mans v); [discriminate|]. injection Hd as ->. reflexivity.
      * intros y ly Hy. change (vfns_of h1 y) with (vfns_of h y) in Hy. split; [eapply wm_vnd; eauto|].
        intros z. rewrite Hd. split.
        { intros Hz. destruct (Nat.eq_dec z (vf_obj v)) as [->|n]; [left|right; eauto]. split; auto.
          apply (wm_act m0 h W y _ _ Hy) in Hz. destruct Hz as (w & Y1 & Y2 & Y3).
          assert (w = v) by (eapply (nodup_key_inj vf_obj); eauto; apply (wm_vobj m0 h W)). congruence. }
        { intros [[-> C]|(n & lx & L1 & L2)]; [|congruence].
          apply (wm_act m0 h W y _ _ Hy). exists v. auto. }
    + constructor; try reflexivity. apply vsk_upd_mans.
    + reflexivity.
    + apply mstep_same0; auto.
    + reflexivity.
    + split; [exact I|exact MI].
    + left. split; [exact Hd|]. intros C. rewrite C in Hx. discriminate.
Qed.

(** ** Dropping the front manager *)
Lemma drop_front : forall m0 h h2 v o rest, WM m0 h -> In v (h_vfns h) -> vf_mans v = o :: rest ->
  h_mans h2 = h_mans h -> h_pfs h2 = h_pfs h ->
  exists h3, decr_ref h2 o (vf_obj v) = Some h3 /\ mans_upd h2 h3 /\ mstep h2 h3 /\
    forall x lx', vfns_of h3 x = Some lx' -> NoDup lx' /\
      forall vo, In vo lx' <-> (vo <> vf_obj v /\ exists lx, vfns_of h x = Some lx /\ In vo lx).
Proof.
  intros m0 h h2 v o rest W Hv E K P.
  assert (G : forall x, get_man h2 x = get_man h x) by (intros x; unfold get_man; rewrite K; reflexivity).
  assert (Vq : forall x, vfns_of h2 x = vfns_of h x) by (intros x; unfold vfns_of; rewrite G; reflexivity).
  destruct (wm_vfns_get m0 h o v W Hv) as (m & G1 & G2 & G3 & G4); [rewrite E; left; reflexivity|].
  assert (Iv : In (vf_obj v) (mn_vfns m)).
  { apply (wm_act m0 h W o _ _ G4). exists v. split; auto. split; auto. rewrite E. reflexivity. }
  assert (Kn : pf_known h2 m) by (unfold pf_known; rewrite P; exact G3).
  assert (G1' : get_man h2 o = Some m) by (rewrite G; exact G1).
  destruct (decr_ref_spec h2 o (vf_obj v) m G1' Kn) as (h3 & E3 & M3 & V3 & _).
  exists h3. split; [exact E3|]. split; [exact M3|]. split.
  { eapply decr_ref_mstep; eauto. intros C. rewrite C in Iv. destruct Iv. }
  intros x lx' Hx. rewrite V3 in Hx. destruct (x =? o) eqn:Ex.
  - apply Nat.eqb_eq in Ex. subst x. injection Hx as <-.
    pose proof (wm_vnd m0 h W o _ G4) as Nd. split; [apply nodup_del_first_id; auto|].
    intros y. rewrite in_del_nat by auto. split.
    + intros [H1 H2]. split; eauto.
    + intros (Hn & lx & L1 & L2). split; auto. congruence.
  - apply Nat.eqb_neq in Ex. rewrite Vq in Hx. split; [eapply wm_vnd; eauto|]. intros y. split.
    + intros H. split; eauto. intros ->. apply (wm_act m0 h W x _ _ Hx) in H.
      destruct H as (y & Y1 & Y2 & Y3).
      assert (y = v) by (eapply (nodup_key_inj vf_obj); eauto; apply (wm_vobj m0 h W)). subst y.
      rewrite E in Y3. injection Y3 as ->. congruence.
    + intros (Hn & lx & L1 & L2). congruence.
Qed.

Lemma sorted_filter_del : forall (R : nat -> nat -> Prop) o l,
  StronglySorted R l -> StronglySorted R (del_first (Nat.eqb o) l).
Proof.
  intros R o l H. pose proof (sorted_del_first (fun x => x) R (Nat.eqb o) l) as G. rewrite !map_id in G. auto.
Qed.

(** ** HookManRemoved *)
(** The vfnptr keeps some manager. *)
Lemma hookman_removed_keep : forall m0 h v o m, WM m0 h -> In v (h_vfns h) -> get_man h o = Some m ->
  vf_mans v <> [o] ->
  exists h' v', hookman_removed h v o = Some (h', v', true) /\ WM m0 h' /\ hooks_same h h' /\
    map mkey4 (h_mans h') = map mkey4 (h_mans h) /\ mstep h h' /\
    h_vfns h' = upd_first (vfn_is (vf_obj v)) (set_vf_mans (del_first (Nat.eqb o) (vf_mans v))) (h_vfns h) /\
    (vf_mans v <> [] -> del_first (Nat.eqb o) (vf_mans v) <> []).
Proof.
  intros m0 h v o m W Hv G Ne. unfold hookman_removed. rewrite G.
  destruct (get_man_obj h o m G) as [Hm Om].
  destruct (wm_ver m0 h W m Hm) as (i & Hi1 & Hi2 & Hi3).
  destruct (Z.eqb (pf_ver (mn_info m)) (-1)) eqn:Ev; [apply Z.eqb_eq in Ev; congruence|].
  destruct (memb o (vf_mans v)) eqn:Mb.
  - apply memb_in in Mb. pose proof (wm_nd m0 h W v Hv) as Nd.
    pose proof (get_vfn_in h v (wm_vobj m0 h W) Hv) as Gv.
    assert (Hsub : forall x, In x (del_first (Nat.eqb o) (vf_mans v)) -> In x (vf_mans v))
      by (intros x; apply in_del_first_weak).
    destruct (vf_mans v) as [|f rest] eqn:Ea; [destruct Mb|].
    cbn [del_first] in *. rewrite (Nat.eqb_sym o f) in *.
    destruct (f =? o) eqn:Ef.
    + apply Nat.eqb_eq in Ef. subst f.
      destruct (drop_front m0 h h v o rest W Hv Ea eq_refl eq_refl) as (h1 & E1 & M1 & P1 & V1). rewrite E1.
      destruct rest as [|sec r]; [congruence|].
      set (h2 := set_vfns h1 _).
      destruct (wm_vfns_get m0 h sec v W Hv) as (ms & S1 & S2 & S3 & S4); [rewrite Ea; right; left; reflexivity|].
      assert (Hso : sec <> o). { intros ->. apply nodup_hd_tl in Nd. apply Nd. left. reflexivity. }
      destruct (key_get_ex h h2 sec ms (mu_key h h1 M1) S1) as (ms2 & S5 & S6).
      assert (S7 : pf_known h2 ms2).
      { destruct S3 as (i3 & I1 & I2). exists i3. cbn [h2 set_vfns h_pfs]. rewrite (mu_pfs h h1 M1). unfold mkey4 in S6.
        split; [|congruence]. replace (mn_pf ms2) with (mn_pf ms) by congruence. exact I1. }
      destruct (incr_ref_spec h2 sec (vf_obj v) ms2 S5 S7) as (h3 & E3 & M3 & V3 & _). rewrite E3.
      pose proof (incr_ref_mstep h2 sec (vf_obj v) ms2 h3 S5 S7 E3) as P3.
      destruct (key_get_ex h2 h3 sec ms2 (mu_key h2 h3 M3) S5) as (ms3 & S8 & S9). rewrite S8.
      assert (Ep : mn_pf ms3 = mn_pf ms) by (unfold mkey4 in S6, S9; congruence). rewrite Ep.
      eexists _, _. split; [reflexivity|].
      set (h4 := patch h3 _ _).
      assert (E4 : h_vfns h4 = upd_first (vfn_is (vf_obj v)) (set_vf_mans (sec :: r)) (h_vfns h)).
      { cbn [h4 patch emit set_tr set_mem h_vfns]. rewrite (mu_vfns _ _ M3). cbn [h2 set_vfns h_vfns].
        rewrite (mu_vfns _ _ M1). reflexivity. }
      assert (K4 : map mkey4 (h_mans h4) = map mkey4 (h_mans h)).
      { cbn [h4 patch emit set_tr set_mem h_mans]. rewrite (mu_key _ _ M3). exact (mu_key _ _ M1). }
      assert (Vs : vfns_of h2 sec = Some (mn_vfns ms2)) by (unfold vfns_of; rewrite S5; reflexivity).
      split; [|split; [|split; [|split; [|split]]]].
      * eapply (WM_change m0 h h4 v (sec :: r)); auto.
        { cbn [h4 patch emit set_tr set_mem h_pfs]. rewrite (mu_pfs _ _ M3). exact (mu_pfs _ _ M1). }
        { cbn [h4 patch emit set_tr set_mem h_nxt]. rewrite (mu_nxt _ _ M3). exact (mu_nxt _ _ M1). }
        { intros mo Hmo. apply (wm_ref m0 h W v mo Hv). rewrite Ea. right. exact Hmo. }
        { inversion Nd; auto. }
        { pose proof (wm_sort m0 h W v Hv) as So. rewrite Ea in So. apply StronglySorted_inv in So. tauto. }
        { intros s Hs. cbn [h4 patch emit set_tr set_mem h_mem]. rewrite zupd_neq by auto.
          rewrite (mu_mem _ _ M3). cbn [h2 set_vfns h_mem]. rewrite (mu_mem _ _ M1). reflexivity. }
        { cbn [h4 patch emit set_tr set_mem h_mem]. rewrite zupd_eq. unfold slot_code. cbn [vf_mans set_vf_mans].
          unfold man_pf. rewrite S1. reflexivity. }
        intros x lx' Hx. change (vfns_of h4 x) with (vfns_of h3 x) in Hx. rewrite V3 in Hx.
        destruct (x =? sec) eqn:Ex.
        { apply Nat.eqb_eq in Ex. subst x. injection Hx as <-.
          change (vfns_of h2 sec) with (vfns_of h1 sec) in Vs. destruct (V1 sec _ Vs) as [A B]. split.
          - apply nodup_snoc; auto. intros C. apply B in C. destruct C. congruence.
          - intros y. rewrite in_app_iff. cbn [In hd_error]. rewrite (B y). split.
            + intros [H|[<-|[]]]; [right; exact H|left; auto].
            + intros [[-> _]|H]; auto. }
        { apply Nat.eqb_neq in Ex. change (vfns_of h2 x) with (vfns_of h1 x) in Hx.
          destruct (V1 x _ Hx) as [A B]. split; auto. intros y. rewrite (B y). cbn [hd_error]. split; auto.
          intros [[_ C]|H]; auto. congruence. }
      * constructor; cbn [h4 patch emit set_tr set_mem h_pfs h_ids h_vt h_delegs h_thunks h_nxt];
          rewrite ?(mu_pfs _ _ M3), ?(mu_ids _ _ M3), ?(mu_vt _ _ M3), ?(mu_delegs _ _ M3), ?(mu_thunks _ _ M3), ?(mu_nxt _ _ M3);
          cbn [h2 set_vfns h_pfs h_ids h_vt h_delegs h_thunks h_nxt]; try (destruct M1; assumption).
        rewrite E4. apply vsk_upd_mans.
      * exact K4.
      * eapply mstep_trans; [exact P1|]. eapply mstep_trans; [|eapply mstep_trans; [exact P3|apply mstep_patch]].
        apply mstep_same0; auto.
      * exact E4.
      * discriminate.
    + apply Nat.eqb_neq in Ef. eexists _, _. split; [reflexivity|].
      set (l := f :: del_first (Nat.eqb o) rest). set (h1 := set_vfns h _).
      split; [|split; [|split; [|split; [|split]]]].
      * eapply (WM_change m0 h h1 v l); auto.
        { intros mo Hmo. apply (wm_ref m0 h W v mo Hv). rewrite Ea. apply Hsub. exact Hmo. }
        { inversion Nd; subst. constructor; [|apply nodup_del_first_id; auto]. intros C. apply in_del_first_weak in C. auto. }
        { pose proof (wm_sort m0 h W v Hv) as So. rewrite Ea in So. apply (sorted_filter_del _ o) in So.
          cbn [del_first] in So. rewrite (Nat.eqb_sym o f) in So.
          replace (f =? o) with false in So by (symmetry; apply Nat.eqb_neq; auto). exact So. }
        { change (h_mem h1) with (h_mem h). rewrite <- (wm_mem m0 h W v Hv). unfold slot_code. cbn [vf_mans set_vf_mans].
          rewrite Ea. reflexivity. }
        intros y ly Hy. change (vfns_of h1 y) with (vfns_of h y) in Hy. split; [eapply wm_vnd; eauto|].
        intros z. cbn [hd_error l]. split.
        { intros Hz. destruct (Nat.eq_dec z (vf_obj v)) as [->|n]; [left|right; eauto]. split; auto.
          apply (wm_act m0 h W y _ _ Hy) in Hz. destruct Hz as (w & Y1 & Y2 & Y3).
          assert (w = v) by (eapply (nodup_key_inj vf_obj); eauto; apply (wm_vobj m0 h W)). subst w.
          rewrite Ea in Y3. exact Y3. }
        { intros [[-> C]|(n & lx & L1 & L2)]; [|congruence].
          apply (wm_act m0 h W y _ _ Hy). exists v. split; auto. split; auto. rewrite Ea. exact C. }
      * constructor; try reflexivity. apply vsk_upd_mans.
      * reflexivity.
      * apply mstep_same0; auto.
      * reflexivity.
      * discriminate.
  - apply memb_false in Mb. exists h, v. split; [reflexivity|]. split; [exact W|].
    split; [constructor; reflexivity|]. split; [reflexivity|]. split; [apply mstep_refl|].
    assert (Ed : del_first (Nat.eqb o) (vf_mans v) = vf_mans v).
    { apply del_first_none. intros x Hx. apply Nat.eqb_neq. intros ->. auto. }
    rewrite Ed. split; [|auto].
    symmetry. eapply upd_first_self; [apply (get_vfn_in h v (wm_vobj m0 h W) Hv)|apply set_vf_mans_self].
Qed.
