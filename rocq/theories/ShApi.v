(** The remaining API functions: removal of several hooks, hook managers,
    unloading, shutdown and pausing. *)
From Coq Require Import List Bool Arith ZArith Lia Sorted Permutation.
From Verif Require Import ProtoModel ProtoSpec ProtoProofs ShModel ShLists ShInv ShMan ShHooks ShAdd ShRem.
Import ListNotations.
Local Open Scope nat_scope.

(** ** Several hooks by id *)
Definition zmemb (x : Z) (l : list Z) : bool := existsb (Z.eqb x) l.
Lemma zmemb_in : forall x l, zmemb x l = true <-> In x l.
Proof.
  intros x l. unfold zmemb. rewrite existsb_exists. split.
  - intros (y & H1 & H2). apply Z.eqb_eq in H2. subst y. exact H1.
  - intros H. exists x. split; auto. apply Z.eqb_refl.
Qed.

Lemma removed_absent : forall h id, WH h -> query_hook (h_ids h) id = None -> removed h h (fun x => (id =? x)%Z).
Proof.
  intros h id W Q. constructor; auto; try apply mstep_refl.
  - intros s a p k. split; [|tauto]. intros H. split; auto. apply Z.eqb_neq. intros C.
    destruct (wh_entry h W s a p k H) as (e & Qe & _). congruence.
  - intros x. destruct (id =? x)%Z eqn:E; [|reflexivity]. apply Z.eqb_eq in E. subst x. exact Q.
  - intros n. split; [|tauto]. intros H. split; auto. intros x e Qx _. apply Z.eqb_neq. intros ->. congruence.
Qed.

Theorem remove_ids_ok : forall m0 l k, WF m0 k ->
  exists k' b, remove_ids k l = Some (k', b) /\ WF m0 k' /\
    removed (c_h k) (c_h k') (fun x => zmemb x l) /\ map mkey4 (h_mans (c_h k')) = map mkey4 (h_mans (c_h k)) /\
    (b = true <-> exists id e, In id l /\ query_hook (h_ids (c_h k)) id = Some e).
Proof.
  intros m0 l. induction l as [|id l IH]; intros k W.
  - exists k, false. split; [reflexivity|]. split; [exact W|]. split; [apply removed_refl|]. split; [reflexivity|].
    split; [discriminate|]. intros (id & e & [] & _).
  - cbn [remove_ids].
    assert (S : exists k1 b1, remove_by_id k id = Some (k1, b1) /\ WF m0 k1 /\ removed (c_h k) (c_h k1) (fun x => (id =? x)%Z) /\
              map mkey4 (h_mans (c_h k1)) = map mkey4 (h_mans (c_h k)) /\ (b1 = true <-> exists e, query_hook (h_ids (c_h k)) id = Some e)).
    { destruct (query_hook (h_ids (c_h k)) id) as [e|] eqn:Q.
      - destruct (remove_by_id_ok m0 k id e W Q) as (v & i & hk & k1 & _ & E & W1 & R & K & _).
        exists k1, true. split; [exact E|]. split; [exact W1|]. split; [exact R|]. split; [exact K|]. split; eauto.
      - exists k, false. split; [apply remove_by_id_none; exact Q|]. split; [exact W|].
        split; [apply removed_absent; [apply (wf_h m0 k W)|exact Q]|]. split; [reflexivity|].
        split; [discriminate|]. intros (e & C). discriminate. }
    destruct S as (k1 & b1 & E1 & W1 & R1 & K1 & B1).
    destruct (IH k1 W1) as (k2 & b2 & E2 & W2 & R2 & K2 & B2).
    exists k2, (b1 || b2). rewrite E1, E2. split; [reflexivity|]. split; [exact W2|]. split.
    { eapply removed_ext; [|apply (removed_trans _ _ _ _ _ R1 R2)]. intros x. cbn [zmemb existsb]. fold (zmemb x l).
      rewrite Z.eqb_sym. reflexivity. }
    split; [congruence|]. rewrite orb_true_iff, B1, B2. split.
    + intros [(e & Q)|(x & e & H1 & H2)]; [exists id, e; cbn; auto|].
      rewrite (rv_query _ _ _ R1) in H2. destruct (id =? x)%Z; [discriminate|]. exists x, e. cbn. auto.
    + intros (x & e & [->|Hx] & Q); [left; eauto|].
      destruct (id =? x)%Z eqn:Ex.
      * apply Z.eqb_eq in Ex. subst x. left. eauto.
      * right. exists x, e. split; auto. rewrite (rv_query _ _ _ R1), Ex. exact Q.
Qed.

(** ** RemoveHook *)
(** Prototypes come from CProto::Fill. *)
Definition pf_wf (h : hs) : Prop :=
  (forall f i, h_pfs h f = Some i -> proto_wf (pf_proto i)) /\
  (forall id e, query_hook (h_ids h) id = Some e -> proto_wf (pf_proto (en_info e))).

(** What RemoveHook looks for, in terms of the entry of a hook. *)
Definition hook_matches (info : pfinfo) (adj plug offs handler : Z) (post : bool) (e : entry) : Prop :=
  compatible (pf_proto (en_info e)) (pf_proto info) /\
  pf_voffs (en_info e) = pf_voffs info /\ pf_vidx (en_info e) = pf_vidx info /\
  en_adj e = adj /\ en_plug e = plug /\ en_offs e = offs /\ en_handler e = handler /\ en_post e = post.

Lemma find_ids_opt_spec : forall (p : entry -> option bool) ids i,
  (forall n e, qn ids n = Some e -> p e <> None) -> (forall e, en_free e = true -> p e = Some false) ->
  exists l, find_ids_opt p ids i = Some l /\
    forall x, In x l <-> exists n e, x = (i + Z.of_nat n + 1)%Z /\ qn ids n = Some e /\ p e = Some true.
Proof.
  intros p ids. induction ids as [|a l IH]; intros i Hp Hf.
  - exists []. split; [reflexivity|]. intros x. split; [intros []|]. intros (n & e & _ & H & _). destruct n; discriminate.
  - destruct (IH (i + 1)%Z) as (r & Er & Hr); [intros n; apply (Hp (S n))|exact Hf|].
    assert (St : forall x, (exists n e, x = (i + 1 + Z.of_nat n + 1)%Z /\ qn l n = Some e /\ p e = Some true) <->
                 (exists n e, n <> 0 /\ x = (i + Z.of_nat n + 1)%Z /\ qn (a :: l) n = Some e /\ p e = Some true)).
    { intros x. split.
      - intros (n & e & H1 & H2 & H3). exists (S n), e. repeat split; auto; lia.
      - intros (n & e & H0 & H1 & H2 & H3). destruct n as [|n]; [congruence|]. exists n, e. repeat split; auto; lia. }
    cbn [find_ids_opt]. rewrite Er.
    destruct (p a) as [[|]|] eqn:E.
    + assert (Fa : en_free a = false) by (destruct (en_free a) eqn:F; auto; rewrite (Hf a F) in E; discriminate).
      exists ((i + 1)%Z :: r). split; [reflexivity|]. intros x. cbn [In]. rewrite Hr, St. split.
      * intros [<-|(n & e & H0 & H)]; [|exists n, e; exact H].
        exists 0, a. split; [lia|]. split; auto. unfold qn. cbn [nth_error]. rewrite Fa. reflexivity.
      * intros (n & e & H). destruct n as [|n].
        { left. lia. } right. exists (S n), e. split; [lia|exact H].
    + exists r. split; [reflexivity|]. intros x. rewrite Hr, St. split.
      * intros (n & e & H0 & H). exists n, e. exact H.
      * intros (n & e & H). destruct n as [|n].
        { exfalso. destruct H as (_ & H2 & H3). unfold qn in H2. cbn [nth_error] in H2.
          destruct (en_free a); [discriminate|]. injection H2 as ->. congruence. }
        exists (S n), e. split; [lia|exact H].
    + exfalso. destruct (en_free a) eqn:F; [rewrite (Hf a F) in E; discriminate|].
      apply (Hp 0 a); [unfold qn; cbn [nth_error]; rewrite F; reflexivity|exact E].
Qed.

Lemma entry_matches_spec : forall h info adj plug offs handler post id e, WH h -> pf_wf h -> proto_wf (pf_proto info) ->
  query_hook (h_ids h) id = Some e ->
  exists b, entry_matches h info adj plug offs handler post e = Some b /\
    (b = true <-> hook_matches info adj plug offs handler post e).
Proof.
  intros h info adj plug offs handler post id e W [_ P] Pi Q. unfold entry_matches.
  destruct (query_pos _ _ _ Q) as [_ Fe]. rewrite Fe. pose proof (P id e Q) as Pe.
  destruct (proto_eq_total _ _ Pe Pi) as [b Eb]. rewrite Eb. pose proof (proto_eq_spec _ _ Pe Pi) as PS. rewrite Eb in PS.
  unfold hook_matches. destruct b.
  - assert (Cp : compatible (pf_proto (en_info e)) (pf_proto info)) by (apply PS; reflexivity).
    destruct (((pf_voffs (en_info e) =? pf_voffs info)%Z && (pf_vidx (en_info e) =? pf_vidx info)%Z && (en_adj e =? adj)%Z && (en_plug e =? plug)%Z && (en_offs e =? offs)%Z)) eqn:C.
    + rewrite !andb_true_iff, !Z.eqb_eq in C. destruct C as ((((C1 & C2) & C3) & C4) & C5).
      assert (Hd : memb (en_nid e) (h_delegs h) = true) by (apply memb_in; apply (wh_delegs h W); eauto).
      rewrite Hd. eexists. split; [reflexivity|]. rewrite andb_true_iff, Z.eqb_eq, eqb_true_iff. tauto.
    + exists false. split; [reflexivity|]. split; [discriminate|]. intros (_ & C1 & C2 & C3 & C4 & C5 & _).
      assert (X : true = false); [|discriminate]. rewrite <- C. symmetry. rewrite !andb_true_iff, !Z.eqb_eq. auto.
  - exists false. split; [reflexivity|]. split; [discriminate|]. intros (C & _). exfalso.
    apply PS in C. discriminate.
Qed.

Theorem remove_hook_ok : forall m0 k plug ifp offs pf handler post info, WF m0 k -> pf_wf (c_h k) ->
  h_pfs (c_h k) pf = Some info ->
  exists k' b D, remove_hook k plug ifp offs pf handler post = Some (k', b) /\ WF m0 k' /\
    removed (c_h k) (c_h k') D /\ map mkey4 (h_mans (c_h k')) = map mkey4 (h_mans (c_h k)) /\
    (forall id e, query_hook (h_ids (c_h k)) id = Some e ->
       (D id = true <-> hook_matches info (ifp + offs) plug offs handler post e)) /\
    (b = true <-> exists id e, query_hook (h_ids (c_h k)) id = Some e /\ hook_matches info (ifp + offs) plug offs handler post e).
Proof.
  intros m0 k plug ifp offs pf handler post info W P Epf. pose proof (wf_h m0 k W) as H.
  assert (Pi : proto_wf (pf_proto info)) by (apply (proj1 P pf); exact Epf).
  set (p := entry_matches (c_h k) info (ifp + offs) plug offs handler post).
  destruct (find_ids_opt_spec p (h_ids (c_h k)) 0) as (l & El & Hl).
  { intros n e Q. rewrite <- query_S in Q. destruct (entry_matches_spec (c_h k) info (ifp + offs) plug offs handler post _ e H P Pi Q) as (b & E & _).
    unfold p. congruence. }
  { intros e F. unfold p, entry_matches. rewrite F. reflexivity. }
  assert (HM : forall id, In id l <-> exists e, query_hook (h_ids (c_h k)) id = Some e /\ hook_matches info (ifp + offs) plug offs handler post e).
  { intros id. rewrite Hl. split.
    - intros (n & e & E & Q & T). exists e. rewrite <- query_S in Q. replace (Z.of_nat n + 1)%Z with id in Q by lia. split; auto.
      destruct (entry_matches_spec (c_h k) info (ifp + offs) plug offs handler post _ e H P Pi Q) as (b & Eb & Hb).
      apply Hb. unfold p in T. congruence.
    - intros (e & Q & T). exists (Z.to_nat (id - 1)), e. pose proof (query_nat _ _ _ Q) as Ex. split; [lia|].
      split; [rewrite Ex, query_S in Q; exact Q|].
      destruct (entry_matches_spec (c_h k) info (ifp + offs) plug offs handler post _ e H P Pi Q) as (b & Eb & Hb).
      unfold p. rewrite Eb. f_equal. apply Hb. exact T. }
  destruct (remove_ids_ok m0 l k W) as (k' & b & E & W' & R & K & B).
  unfold remove_hook. rewrite Epf. fold p. rewrite El.
  assert (Eq : (match l with [] => Some (k, false) | _ => remove_ids k l end) = Some (k', b)).
  { destruct l; [|exact E]. cbn [remove_ids] in E. exact E. }
  exists k', b, (fun x => zmemb x l). split; [destruct l; exact Eq|]. split; [exact W'|]. split; [exact R|]. split; [exact K|]. split.
  - intros id e Q. rewrite zmemb_in, HM. split.
    + intros (e' & Q' & T). replace e with e' by congruence. exact T.
    + intros T. eauto.
  - rewrite B. split.
    + intros (id & e & H1 & H2). apply HM in H1. destruct H1 as (e' & H3 & H4). exists id, e'. auto.
    + intros (id & e & H1 & H2). exists id, e. split; auto. apply HM. eauto.
Qed.

(** ** Pausing *)
Definition pause_hook (D : Z -> bool) (p : bool) (k : hook) : hook :=
  if D (hk_id k) then Hook (hk_nid k) (hk_plug k) (hk_offs k) (hk_handler k) (hk_id k) p else k.
Definition pause_iface (D : Z -> bool) (p : bool) (i : iface) : iface :=
  Iface (if_obj i) (if_ptr i) (map (pause_hook D p) (if_pre i)) (map (pause_hook D p) (if_post i)).
Definition pause_vfn (D : Z -> bool) (p : bool) (v : vfn) : vfn :=
  set_vf_ifaces (map (pause_iface D p) (vf_ifaces v)) v.

Lemma pause_hook_nid : forall D p k, hk_nid (pause_hook D p k) = hk_nid k.
Proof. intros D p k. unfold pause_hook. destruct (D (hk_id k)); reflexivity. Qed.
Lemma pause_hook_id : forall D p k, hk_id (pause_hook D p k) = hk_id k.
Proof. intros D p k. unfold pause_hook. destruct (D (hk_id k)); reflexivity. Qed.
Lemma pause_hooks_of : forall D p q i, hooks_of q (pause_iface D p i) = map (pause_hook D p) (hooks_of q i).
Proof. intros D p [|] i; reflexivity. Qed.

Lemma pause_hook_at : forall h D p, let h' := set_vfns h (map (pause_vfn D p) (h_vfns h)) in
  forall s a q k', hook_at h' s a q k' <-> exists k, hook_at h s a q k /\ k' = pause_hook D p k.
Proof.
  intros h D p h' s a q k'. split.
  - intros (v' & i' & H1 & H2 & H3 & H4 & H5). cbn [h_vfns set_vfns h'] in H1. apply in_map_iff in H1.
    destruct H1 as (v & <- & Hv). cbn [vf_ifaces pause_vfn set_vf_ifaces] in H3. apply in_map_iff in H3. destruct H3 as (i & <- & Hi).
    rewrite pause_hooks_of in H5. apply in_map_iff in H5. destruct H5 as (k & <- & Hk). exists k. split; auto. exists v, i. auto.
  - intros (k & (v & i & H1 & H2 & H3 & H4 & H5) & ->). exists (pause_vfn D p v), (pause_iface D p i).
    split; [apply in_map; exact H1|]. split; [exact H2|]. split; [cbn; apply in_map; exact H3|]. split; [exact H4|].
    rewrite pause_hooks_of. apply in_map. exact H5.
Qed.

Lemma pause_WF : forall m0 k D p, WF m0 k ->
  WF m0 (Core (set_vfns (c_h k) (map (pause_vfn D p) (h_vfns (c_h k)))) (c_cs k) (c_tasks k)).
Proof.
  intros m0 [h cs ts] D p [M H N T]. cbn [c_h c_cs c_tasks] in *. set (h' := set_vfns h (map (pause_vfn D p) (h_vfns h))).
  pose proof (pause_hook_at h D p) as HA. cbn zeta in HA. fold h' in HA. constructor; cbn [c_h c_tasks].
  - apply (WM_ext_mu m0 h h'); auto. cbn [h_vfns h' set_vfns]. rewrite map_map. reflexivity.
  - assert (I1 : forall y j, In y (h_vfns h') -> In j (vf_ifaces y) -> exists v i, In v (h_vfns h) /\ In i (vf_ifaces v) /\ y = pause_vfn D p v /\ j = pause_iface D p i).
    { intros y j Hy Hj. cbn [h_vfns h' set_vfns] in Hy. apply in_map_iff in Hy. destruct Hy as (v & <- & Hv).
      cbn [vf_ifaces pause_vfn set_vf_ifaces] in Hj. apply in_map_iff in Hj. destruct Hj as (i & <- & Hi). exists v, i. auto. }
    constructor.
    + cbn [h_vfns h' set_vfns]. rewrite map_map. apply (wh_vptr h H).
    + cbn [h_vfns h' set_vfns]. rewrite map_map. apply (wh_vobj h H).
    + intros y Hy. cbn [h_vfns h' set_vfns] in Hy. apply in_map_iff in Hy. destruct Hy as (v & <- & Hv).
      cbn [vf_ifaces pause_vfn set_vf_ifaces]. rewrite map_map. apply (wh_iptr h H v Hv).
    + intros v1 i1 v2 i2 A1 B1 A2 B2 E. destruct (I1 v1 i1 A1 B1) as (w1 & j1 & C1 & C2 & -> & ->).
      destruct (I1 v2 i2 A2 B2) as (w2 & j2 & G1 & G2 & -> & ->). apply (wh_iobj h H w1 j1 w2 j2); auto.
    + intros y j q Hy Hj. destruct (I1 y j Hy Hj) as (v & i & C1 & C2 & -> & ->). rewrite pause_hooks_of, map_map.
      rewrite (map_ext _ hk_nid) by (intros; apply pause_hook_nid). apply (wh_sorted h H v i q C1 C2).
    + intros s a q k' Hk. apply HA in Hk. destruct Hk as (k & Hk & ->). rewrite pause_hook_id.
      destruct (wh_entry h H s a q k Hk) as (e & Q & F). exists e. split; auto. unfold pause_hook. destruct (D (hk_id k)); exact F.
    + intros id e Q. destruct (wh_hook h H id e Q) as (k & K1 & K2). exists (pause_hook D p k). split; [apply HA; eauto|].
      rewrite pause_hook_id. exact K2.
    + apply (wh_nid h H).
    + apply (wh_delegs h H).
    + apply (wh_dnd h H).
    + intros y j Hy Hj. destruct (I1 y j Hy Hj) as (v & i & C1 & C2 & -> & ->). apply (wh_fresh_i h H v i C1 C2).
    + apply (wh_fresh_n h H).
  - intros y Hy. cbn [h_vfns h' set_vfns] in Hy. apply in_map_iff in Hy. destruct Hy as (v & <- & Hv).
    destruct (N v Hv) as (N1 & N2 & N3). split; [exact N1|]. split.
    + cbn. intros C. apply map_eq_nil in C. congruence.
    + intros j Hj. cbn in Hj. apply in_map_iff in Hj. destruct Hj as (i & <- & Hi). cbn [if_pre if_post pause_iface].
      rewrite <- map_app. intros C. apply map_eq_nil in C. apply (N3 i Hi C).
  - apply (WT_ext h h'); auto. unfold vfn_thunks. cbn [h_vfns h' set_vfns]. clear. induction (h_vfns h) as [|a l IH]; [reflexivity|].
    cbn [map flat_map]. rewrite IH. reflexivity.
Qed.

Lemma upd_first_map : forall {A K} (p : A -> bool) (key : A -> K) k (f g : A -> A) l, selects p key k -> NoDup (map key l) ->
  (forall x, In x l -> key x = k -> f x = g x) -> (forall x, In x l -> key x <> k -> g x = x) -> upd_first p f l = map g l.
Proof.
  intros A K p key k f g l S. induction l as [|a l IH]; intros N H1 H2; [reflexivity|]. cbn [map] in N. inversion N as [|? ? N1 N2]; subst.
  cbn [upd_first map]. destruct (p a) eqn:E.
  - apply (S a) in E. rewrite (H1 a) by (cbn; auto). f_equal. symmetry.
    assert (X : forall x, In x l -> g x = x).
    { intros x Hx. apply H2; [cbn; auto|]. intros C. apply N1. rewrite E, <- C. apply in_map. exact Hx. }
    clear - X. induction l as [|b l IH]; [reflexivity|]. cbn [map]. rewrite X by (cbn; auto). f_equal. apply IH. intros; apply X; cbn; auto.
  - apply (sel_false p key k a S) in E. rewrite (H2 a) by (cbn; auto). f_equal. apply IH; auto.
    + intros x Hx. apply H1. cbn. auto.
    + intros x Hx. apply H2. cbn. auto.
Qed.

Lemma pause_hook_off : forall D p k, D (hk_id k) = false -> pause_hook D p k = k.
Proof. intros D p k E. unfold pause_hook. rewrite E. reflexivity. Qed.
Lemma map_id_in : forall {A} (f : A -> A) l, (forall x, In x l -> f x = x) -> map f l = l.
Proof. intros A f l H. induction l as [|a l IH]; [reflexivity|]. cbn [map]. rewrite H by (cbn; auto). f_equal. apply IH. intros; apply H; cbn; auto. Qed.
Lemma pause_iface_off : forall D p i, (forall q k, In k (hooks_of q i) -> D (hk_id k) = false) -> pause_iface D p i = i.
Proof.
  intros D p i H. destruct i as [o a pre post]. unfold pause_iface. cbn [if_obj if_ptr if_pre if_post].
  rewrite !map_id_in; [reflexivity| |]; intros k Hk; apply pause_hook_off.
  - apply (H true k Hk).
  - apply (H false k Hk).
Qed.
Lemma pause_vfn_off : forall D p v, (forall i q k, In i (vf_ifaces v) -> In k (hooks_of q i) -> D (hk_id k) = false) -> pause_vfn D p v = v.
Proof.
  intros D p v H. destruct v as [o s c t m l]. unfold pause_vfn, set_vf_ifaces. cbn. cbn [vf_ifaces] in H. rewrite map_id_in; [reflexivity|].
  intros i Hi. apply pause_iface_off. intros q k Hk. apply (H i q k Hi Hk).
Qed.

Theorem set_paused_eq : forall h id p, WH h ->
  set_paused h id p = (set_vfns h (map (pause_vfn (Z.eqb id) p) (h_vfns h)),
                       match query_hook (h_ids h) id with Some _ => true | None => false end).
Proof.
  intros h id p W. destruct (query_hook (h_ids h) id) as [e|] eqn:Q.
  - destruct (locate h id e W Q) as (v & i & hk & Lc). pose proof Lc as (_ & F1 & F2 & F3 & Hv & Ep & Hi & Ea & Hk & Eid & En & Hd).
    unfold set_paused. rewrite Q, F1, F2, F3. f_equal. f_equal.
    assert (HK : hook_at h (vf_ptr v) (if_ptr i) (en_post e) hk) by (exists v, i; auto).
    assert (Un : forall w j q k, In w (h_vfns h) -> In j (vf_ifaces w) -> In k (hooks_of q j) -> (id =? hk_id k)%Z = true ->
                   vf_ptr w = vf_ptr v /\ if_ptr j = if_ptr i /\ q = en_post e /\ k = hk).
    { intros w j q k A1 A2 A3 A4. apply Z.eqb_eq in A4. apply (hook_at_id_eq h _ _ _ _ _ _ _ _ W); auto; [|congruence]. exists w, j. auto. }
    apply (upd_first_map _ vf_ptr (en_vfnptr e)); auto using sel_vfn_at; [apply (wh_vptr h W)| |].
    + intros w Hw Ew. assert (w = v) by (apply (nodup_key_inj vf_ptr (h_vfns h)); auto; [apply (wh_vptr h W)|congruence]). subst w.
      unfold pause_vfn. f_equal. apply (upd_first_map _ if_ptr (en_adj e)); auto using sel_iface_at; [apply (wh_iptr h W v Hv)| |].
      * intros j Hj Ej. assert (j = i) by (apply (iface_unique h v); auto; congruence). subst j.
        assert (El : upd_first (hook_id_is id) (fun k => Hook (hk_nid k) (hk_plug k) (hk_offs k) (hk_handler k) (hk_id k) p) (hooks_of (en_post e) i)
                     = map (pause_hook (Z.eqb id) p) (hooks_of (en_post e) i)).
        { apply (upd_first_map _ hk_id id); auto using sel_hook_id; [apply (hid_nodup h v i _ W Hv Hi)| |].
          - intros k _ Ek. unfold pause_hook. rewrite Ek, Z.eqb_refl. reflexivity.
          - intros k _ Ek. apply pause_hook_off. apply Z.eqb_neq. auto. }
        rewrite El. unfold pause_iface, set_hooks.
        assert (Oth : forall q, q <> en_post e -> map (pause_hook (Z.eqb id) p) (hooks_of q i) = hooks_of q i).
        { intros q Nq. apply map_id_in. intros k Hk'. apply pause_hook_off. destruct (id =? hk_id k)%Z eqn:E; auto.
          destruct (Un v i q k Hv Hi Hk' E) as (_ & _ & C & _). congruence. }
        pose proof (Oth false) as O1. pose proof (Oth true) as O2. cbn [hooks_of] in O1, O2.
        destruct (en_post e); cbn [hooks_of].
        { rewrite O1; [reflexivity|discriminate]. }
        rewrite O2; [reflexivity|discriminate].
      * intros j Hj Ej. apply pause_iface_off. intros q k Hk'. destruct (id =? hk_id k)%Z eqn:E; auto.
        destruct (Un v j q k Hv Hj Hk' E) as (_ & C & _). congruence.
    + intros w Hw Ew. apply pause_vfn_off. intros j q k Hj Hk'. destruct (id =? hk_id k)%Z eqn:E; auto.
      destruct (Un w j q k Hw Hj Hk' E) as (C & _). congruence.
  - unfold set_paused. rewrite Q. f_equal. rewrite map_id_in; [destruct h; reflexivity|].
    intros w Hw. apply pause_vfn_off. intros j q k Hj Hk'. destruct (id =? hk_id k)%Z eqn:E; auto. apply Z.eqb_eq in E.
    destruct (wh_entry h W (vf_ptr w) (if_ptr j) q k) as (e & Q' & _); [exists w, j; auto|]. congruence.
Qed.

Lemma pause_compose : forall D1 D2 p l,
  map (pause_vfn D2 p) (map (pause_vfn D1 p) l) = map (pause_vfn (fun x => D1 x || D2 x) p) l.
Proof.
  intros D1 D2 p l. rewrite map_map. apply map_ext. intros v. unfold pause_vfn, set_vf_ifaces. cbn. f_equal.
  rewrite map_map. apply map_ext. intros i. unfold pause_iface. cbn. rewrite !map_map.
  assert (G : forall k, pause_hook D2 p (pause_hook D1 p k) = pause_hook (fun x => D1 x || D2 x) p k).
  { intros k. unfold pause_hook at 1 3. rewrite pause_hook_id. unfold pause_hook.
    destruct (D1 (hk_id k)) eqn:E1; destruct (D2 (hk_id k)) eqn:E2; reflexivity. }
  f_equal; apply map_ext; exact G.
Qed.

Lemma set_paused_list_eq : forall m0 p l k, WF m0 k ->
  set_paused_list (c_h k) l p = set_vfns (c_h k) (map (pause_vfn (fun x => zmemb x l) p) (h_vfns (c_h k))).
Proof.
  intros m0 p l. induction l as [|id l IH]; intros k W.
  - cbn [set_paused_list]. rewrite map_id_in; [destruct (c_h k); reflexivity|]. intros v _. apply pause_vfn_off. reflexivity.
  - cbn [set_paused_list]. rewrite (set_paused_eq (c_h k) id p (wf_h m0 k W)). cbn [fst].
    pose proof (pause_WF m0 k (Z.eqb id) p W) as W1. pose proof (IH _ W1) as IH1. cbn [c_h h_vfns set_vfns] in IH1. rewrite IH1.
    rewrite pause_compose. unfold set_vfns. cbn. f_equal. apply map_ext. intros v. unfold pause_vfn, set_vf_ifaces. f_equal.
    apply map_ext. intros i. unfold pause_iface.
    assert (G : forall k0, pause_hook (fun x => (id =? x)%Z || zmemb x l) p k0 = pause_hook (fun x => zmemb x (id :: l)) p k0).
    { intros k0. unfold pause_hook. cbn [zmemb existsb]. rewrite (Z.eqb_sym id). reflexivity. }
    f_equal; apply map_ext; exact G.
Qed.

(** PausePlugin changes the paused flag of exactly the hooks of that plugin. *)
Theorem pause_plugin_ok : forall m0 k plug p, WF m0 k ->
  let h' := pause_plugin (c_h k) plug p in
  WF m0 (Core h' (c_cs k) (c_tasks k)) /\
  (exists D, h' = set_vfns (c_h k) (map (pause_vfn D p) (h_vfns (c_h k))) /\
     forall s a q kk, hook_at (c_h k) s a q kk -> (D (hk_id kk) = true <-> hk_plug kk = plug)).
Proof.
  intros m0 k plug p W h'. unfold h', pause_plugin. rewrite (set_paused_list_eq m0 p _ k W). split; [apply pause_WF; exact W|].
  eexists. split; [reflexivity|]. intros s a q kk H. rewrite zmemb_in, find_ids_query.
  destruct (wh_entry (c_h k) (wf_h m0 k W) s a q kk H) as (e & Q & F). split.
  - intros (e' & Q' & E). apply Z.eqb_eq in E. replace e' with e in E by congruence. destruct F as (_ & _ & _ & F & _). congruence.
  - intros E. exists e. split; auto. apply Z.eqb_eq. destruct F as (_ & _ & _ & F & _). congruence.
Qed.
