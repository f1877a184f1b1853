(** AddHook preserves the invariants and adds exactly one hook. *)
From Coq Require Import List Bool Arith ZArith Lia Sorted Permutation.
From Verif Require Import ProtoModel ShModel ShLists ShInv ShMan ShHooks.
Import ListNotations.
Local Open Scope nat_scope.

(** Everything but the vfnptr [vo] is complete, and [vo] has no empty iface. *)
Definition WNx (h : hs) (vo : nat) : Prop :=
  forall v, In v (h_vfns h) ->
    (forall i, In i (vf_ifaces v) -> if_pre i ++ if_post i <> []) /\
    (vf_obj v <> vo -> vf_mans v <> [] /\ vf_ifaces v <> []).

Lemma WN_WNx : forall h vo, WN h -> WNx h vo.
Proof. intros h vo W v Hv. destruct (W v Hv) as (H1 & H2 & H3). auto. Qed.

(** *** GetVfnPtr *)
Lemma flat_map_snoc : forall {A B} (f : A -> list B) l x, flat_map f (l ++ [x]) = flat_map f l ++ f x.
Proof. intros A B f l x. rewrite flat_map_app. cbn [flat_map]. rewrite app_nil_r. reflexivity. Qed.

Lemma get_vfnptr_new : forall h slot, (forall y, In y (h_vfns h) -> vf_ptr y <> slot) ->
  exists h1 v, get_vfnptr h slot = (h1, vf_obj v) /\ h_vfns h1 = h_vfns h ++ [v] /\
    vf_obj v = h_nxt h /\ vf_ptr v = slot /\ vf_orig v = h_mem h slot /\ vf_mans v = [] /\ vf_ifaces v = [] /\
    h_pfs h1 = h_pfs h /\ h_mshi h1 = h_mshi h /\ h_mans h1 = h_mans h /\ h_ids h1 = h_ids h /\
    h_mem h1 = h_mem h /\ h_vt h1 = h_vt h /\ h_delegs h1 = h_delegs h /\ h_nxt h < h_nxt h1 /\
    ((vf_thunk v = None /\ h_thunks h1 = h_thunks h /\ h_tr h1 = h_tr h) \/
     (exists t, vf_thunk v = Some t /\ h_nxt h <= t < h_nxt h1 /\ h_thunks h1 = t :: h_thunks h /\
                h_tr h1 = OThunkAlloc t :: h_tr h)).
Proof.
  intros h slot Hn. unfold get_vfnptr.
  assert (E : find (vfn_at slot) (h_vfns h) = None) by (apply (find_key_none (vfn_at slot) vf_ptr slot); auto using sel_vfn_at).
  rewrite E. destruct (odd_code (h_mem h slot)).
  - eexists; eexists (Vfn (h_nxt h) slot (h_mem h slot) (Some (S (h_nxt h))) [] []).
    split; [reflexivity|]. cbn. repeat (split; [reflexivity|]). split; [lia|]. right.
    exists (S (h_nxt h)). repeat split; lia.
  - eexists; eexists (Vfn (h_nxt h) slot (h_mem h slot) None [] []).
    split; [reflexivity|]. cbn. repeat (split; [reflexivity|]). split; [lia|]. left. auto.
Qed.

Lemma WH_snoc_empty : forall h h1 v, WH h -> h_vfns h1 = h_vfns h ++ [v] -> vf_ifaces v = [] ->
  (forall y, In y (h_vfns h) -> vf_ptr y <> vf_ptr v) -> (forall y, In y (h_vfns h) -> vf_obj y <> vf_obj v) ->
  h_ids h1 = h_ids h -> h_delegs h1 = h_delegs h -> h_nxt h <= h_nxt h1 ->
  WH h1 /\ (forall s a p k, hook_at h1 s a p k <-> hook_at h s a p k).
Proof.
  intros h h1 v W Ev Ei Hp Ho Eids Ed En.
  assert (HA : forall s a p k, hook_at h1 s a p k <-> hook_at h s a p k).
  { intros s a p k. unfold hook_at. rewrite Ev. split.
    - intros (y & i & H1 & H2 & H3 & H4). apply in_app_iff in H1. destruct H1 as [H1|[<-|[]]].
      + exists y, i. auto.
      + rewrite Ei in H3. destruct H3.
    - intros (y & i & H1 & H). exists y, i. split; [apply in_app_iff; auto|auto]. }
  assert (I1 : forall y i, In y (h_vfns h1) -> In i (vf_ifaces y) -> In y (h_vfns h)).
  { intros y i Hy Hi. rewrite Ev in Hy. apply in_app_iff in Hy. destruct Hy as [Hy|[<-|[]]]; auto. rewrite Ei in Hi. destruct Hi. }
  split; [|exact HA]. constructor.
  - rewrite Ev, map_app. apply nodup_snoc; [apply (wh_vptr h W)|]. intros C. apply in_map_iff in C.
    destruct C as (y & C1 & C2). apply (Hp y C2 C1).
  - rewrite Ev, map_app. apply nodup_snoc; [apply (wh_vobj h W)|]. intros C. apply in_map_iff in C.
    destruct C as (y & C1 & C2). apply (Ho y C2 C1).
  - intros y Hy. rewrite Ev in Hy. apply in_app_iff in Hy. destruct Hy as [Hy|[<-|[]]].
    + apply (wh_iptr h W y Hy).
    + rewrite Ei. constructor.
  - intros v1 i1 v2 i2 A1 B1 A2 B2. apply (wh_iobj h W); eauto.
  - intros y i p Hy Hi. apply (wh_sorted h W y i p); eauto.
  - intros s a p k H. rewrite Eids. apply HA in H. apply (wh_entry h W s a p k H).
  - intros id e H. rewrite Eids in H. destruct (wh_hook h W id e H) as (k & K1 & K2). exists k. split; auto. apply HA. auto.
  - intros id e id' e'. rewrite Eids. apply (wh_nid h W).
  - intros n. rewrite Ed, Eids. apply (wh_delegs h W).
  - rewrite Ed. apply (wh_dnd h W).
  - intros y i Hy Hi. pose proof (wh_fresh_i h W y i (I1 y i Hy Hi) Hi). lia.
  - intros n Hn. rewrite Ed in Hn. pose proof (wh_fresh_n h W n Hn). lia.
Qed.

Lemma get_vfnptr_spec : forall m0 h ts slot, WM m0 h -> WH h -> WN h -> WT h ts ->
  exists h1 vo v, get_vfnptr h slot = (h1, vo) /\ get_vfn h1 vo = Some v /\ vf_ptr v = slot /\
    WM m0 h1 /\ WH h1 /\ WNx h1 vo /\ WT h1 ts /\ mstep h h1 /\
    (forall s a p k, hook_at h1 s a p k <-> hook_at h s a p k) /\
    h_pfs h1 = h_pfs h /\ h_mans h1 = h_mans h /\ h_ids h1 = h_ids h /\ h_mem h1 = h_mem h /\ h_vt h1 = h_vt h /\
    h_delegs h1 = h_delegs h /\ h_nxt h <= h_nxt h1 /\
    ((h1 = h) \/ (h_vfns h1 = h_vfns h ++ [v] /\ vf_obj v = h_nxt h /\ vf_mans v = [] /\ vf_ifaces v = [] /\
                  (forall y, In y (h_vfns h) -> vf_ptr y <> slot))).
Proof.
  intros m0 h ts slot M H N T.
  destruct (find (vfn_at slot) (h_vfns h)) as [v|] eqn:F.
  - destruct (find_key_in _ vf_ptr slot _ _ (sel_vfn_at slot) F) as [Hv Ep].
    exists h, (vf_obj v), v. unfold get_vfnptr. rewrite F. split; [reflexivity|].
    split; [apply get_vfn_in; auto; apply (wm_vobj m0 h M)|]. split; [exact Ep|].
    split; [auto|]. split; [auto|]. split; [apply WN_WNx; auto|]. split; [auto|]. split; [apply mstep_refl|].
    split; [tauto|]. repeat (split; [reflexivity|]). left. reflexivity.
  - pose proof (proj1 (find_key_none _ vf_ptr slot _ (sel_vfn_at slot)) F) as F'. clear F. rename F' into F.
    destruct (get_vfnptr_new h slot F) as (h1 & v & E & Ev & Eo & Ep & Eor & Em & Ei & Epf & Eh & Ema & Eid & Eme & Evt & Ed & En & Th).
    assert (Fo : forall y, In y (h_vfns h) -> vf_obj y <> vf_obj v).
    { intros y Hy. pose proof (wm_fresh_v m0 h M y Hy). lia. }
    assert (Fp : forall y, In y (h_vfns h) -> vf_ptr y <> vf_ptr v) by (rewrite Ep; auto).
    assert (M1 : WM m0 h1).
    { apply (WM_new_vfn m0 h h1 v); auto. rewrite Ep. auto. }
    assert (Hg : get_vfn h1 (vf_obj v) = Some v).
    { apply get_vfn_in; [apply (wm_vobj m0 h1 M1)|]. rewrite Ev. apply in_app_iff. right. left. reflexivity. }
    destruct (WH_snoc_empty h h1 v H Ev Ei Fp Fo Eid Ed) as [H1 HA]; [lia|].
    exists h1, (vf_obj v), v. split; [exact E|]. split; [exact Hg|]. split; [exact Ep|].
    split; [exact M1|]. split; [exact H1|]. split.
    { intros y Hy. rewrite Ev in Hy. apply in_app_iff in Hy. destruct Hy as [Hy|[<-|[]]].
      - destruct (N y Hy) as (N1 & N2 & N3). auto.
      - rewrite Ei. split; [intros i []|congruence]. }
    split.
    { unfold vfn_thunks in *. assert (EF : forall l, vfn_thunks h1 ++ l = vfn_thunks h ++ (match vf_thunk v with Some t => [t] | None => [] end) ++ l).
      { intros l. unfold vfn_thunks. rewrite Ev, flat_map_snoc, <- app_assoc. reflexivity. }
      destruct Th as [(T1 & T2 & T3)|(t & T1 & T2 & T3 & T4)].
      - rewrite T1 in EF. cbn [app] in EF. constructor.
        + rewrite EF. apply (wt_nd h ts T).
        + intros x. rewrite EF, T2. apply (wt_live h ts T).
        + rewrite T2. apply (wt_tnd h ts T).
        + apply (wt_task h ts T).
        + intros x Hx. rewrite T2 in Hx. pose proof (wt_fresh h ts T x Hx). lia.
        + intros x Hx. pose proof (wt_freshk h ts T x Hx). lia.
      - rewrite T1 in EF. assert (Ft : ~ In t (h_thunks h)) by (intros C; pose proof (wt_fresh h ts T t C); lia).
        constructor.
        + rewrite EF. cbn [app].
          apply (Permutation_NoDup (l := t :: (vfn_thunks h ++ map snd ts))); [apply Permutation_middle|].
          constructor; [|apply (wt_nd h ts T)]. rewrite (wt_live h ts T). exact Ft.
        + intros x. rewrite EF, T3. cbn [In app]. rewrite <- (wt_live h ts T x), !in_app_iff. cbn [In]. tauto.
        + rewrite T3. constructor; [exact Ft|apply (wt_tnd h ts T)].
        + apply (wt_task h ts T).
        + intros x Hx. rewrite T3 in Hx. destruct Hx as [<-|Hx]; [lia|]. pose proof (wt_fresh h ts T x Hx). lia.
        + intros x Hx. pose proof (wt_freshk h ts T x Hx). lia. }
    split.
    { destruct Th as [(T1 & T2 & T3)|(t & T1 & T2 & T3 & T4)].
      - apply mstep_same0; auto. lia.
      - apply (mstep_same h h1 [OThunkAlloc t]); auto; try lia; cbn.
        repeat constructor. }
    split; [exact HA|]. repeat (split; [assumption|]). split; [lia|]. right. auto.
Qed.

(** *** GetHookMan *)
Lemma get_hookman_spec : forall m0 h plug pf i, WM m0 h -> h_pfs h pf = Some i -> pf_ver i <> (-1)%Z ->
  exists h1 o m, get_hookman h plug pf i = (h1, o) /\ get_man h1 o = Some m /\ mn_plug m = plug /\ mn_pf m = pf /\
    WM m0 h1 /\ h_vfns h1 = h_vfns h /\ h_pfs h1 = h_pfs h /\ h_ids h1 = h_ids h /\ h_mem h1 = h_mem h /\
    h_vt h1 = h_vt h /\ h_delegs h1 = h_delegs h /\ h_thunks h1 = h_thunks h /\ h_nxt h <= h_nxt h1 /\
    h_mshi h1 = h_mshi h /\ h_tr h1 = h_tr h /\
    (h1 = h \/ (h_mans h1 = h_mans h ++ [m] /\ mn_vfns m = [] /\ mn_obj m = h_nxt h /\
                forall y, In y (h_mans h) -> (mn_plug y, mn_pf y) <> (plug, pf))).
Proof.
  intros m0 h plug pf i M Ef Ev.
  destruct (find (man_key plug pf) (h_mans h)) as [m|] eqn:F.
  - destruct (find_key_in _ _ _ _ _ (sel_man_key plug pf) F) as [Hm Ek]. cbn in Ek. injection Ek as E1 E2.
    exists h, (mn_obj m), m. unfold get_hookman. rewrite F. split; [reflexivity|].
    split; [apply get_man_in; auto; apply (wm_mobj m0 h M)|]. repeat (split; [auto|]). auto.
  - pose proof (proj1 (find_key_none _ _ _ _ (sel_man_key plug pf)) F) as Fk.
    unfold get_hookman. rewrite F.
    eexists; eexists; exists (Man (h_nxt h) plug pf i []). split; [reflexivity|].
    match goal with |- get_man ?x _ = _ /\ _ => set (h1 := x) end.
    assert (M1 : WM m0 h1).
    { apply (WM_new_man m0 h h1 (Man (h_nxt h) plug pf i [])); auto; cbn; try lia. exists i. auto. }
    split.
    { apply (get_man_in h1 (Man (h_nxt h) plug pf i [])); [apply (wm_mobj m0 h1 M1)|]. cbn. apply in_app_iff. right. left. reflexivity. }
    repeat (split; [auto; cbn; lia|]). right. auto.
Qed.

(** *** GetIface *)
Lemma get_iface_spec : forall h vo v adj, WH h -> WNx h vo -> get_vfn h vo = Some v ->
  exists h1 io v1 i, get_iface h vo adj = Some (h1, io) /\ WH h1 /\ get_vfn h1 vo = Some v1 /\
    In i (vf_ifaces v1) /\ if_obj i = io /\ if_ptr i = adj /\ vf_ptr v1 = vf_ptr v /\ vf_mans v1 = vf_mans v /\
    (forall s a p k, hook_at h1 s a p k <-> hook_at h s a p k) /\
    map msk (h_vfns h1) = map msk (h_vfns h) /\ vfn_thunks h1 = vfn_thunks h /\
    (forall w, In w (h_vfns h1) -> vf_obj w <> vo -> In w (h_vfns h)) /\
    (forall j, In j (vf_ifaces v1) -> j = i \/ In j (vf_ifaces v)) /\
    h_pfs h1 = h_pfs h /\ h_mans h1 = h_mans h /\ h_ids h1 = h_ids h /\ h_mem h1 = h_mem h /\ h_vt h1 = h_vt h /\
    h_delegs h1 = h_delegs h /\ h_thunks h1 = h_thunks h /\ h_nxt h <= h_nxt h1 /\ h_mshi h1 = h_mshi h /\
    h_tr h1 = h_tr h /\
    (h1 = h \/ io = h_nxt h /\ (forall j, In j (vf_ifaces v) -> if_ptr j <> adj) /\
       vf_ifaces v1 = (if Z.eqb adj 0 then Iface io adj [] [] :: vf_ifaces v else vf_ifaces v ++ [Iface io adj [] []]) /\
       h_vfns h1 = upd_first (vfn_is vo) (set_vf_ifaces (vf_ifaces v1)) (h_vfns h)).
Proof.
  intros h vo v adj W N Hg. destruct (get_vfn_obj h vo v Hg) as [Hv Eo].
  unfold get_iface. rewrite Hg. destruct (find (iface_at adj) (vf_ifaces v)) as [i|] eqn:F.
  - destruct (find_key_in _ _ _ _ _ (sel_iface_at adj) F) as [Hi Ep].
    exists h, (if_obj i), v, i. split; [reflexivity|]. repeat (split; [first [tauto | auto]|]). auto.
  - pose proof (proj1 (find_key_none _ _ _ _ (sel_iface_at adj)) F) as Fa.
    set (i := Iface (h_nxt h) adj [] []).
    set (L := if (adj =? 0)%Z then i :: vf_ifaces v else vf_ifaces v ++ [i]).
    assert (HL : forall j, In j L <-> j = i \/ In j (vf_ifaces v)).
    { intros j. unfold L. destruct (adj =? 0)%Z; [cbn [In]; intuition|]. rewrite in_app_iff. cbn [In]. intuition. }
    set (h1 := set_nxt (set_vfns h (upd_first (vfn_is vo) (set_vf_ifaces L) (h_vfns h))) (S (h_nxt h))).
    assert (Ev : h_vfns h1 = upd_first (vfn_is (vf_obj v)) (set_vf_ifaces L) (h_vfns h)) by (rewrite Eo; reflexivity).
    pose proof (upd_in h h1 v L (wh_vobj h W) Hv Ev) as UI.
    pose proof (upd_hook_at h h1 v L (wh_vobj h W) (wh_vptr h W) Hv Ev) as UH.
    assert (HA : forall s a p k, hook_at h1 s a p k <-> hook_at h s a p k).
    { intros s a p k. rewrite UH. split.
      - intros [[_ H]|[-> (j & H1 & H2 & H3)]]; auto. apply HL in H1. destruct H1 as [->|H1].
        + exfalso. unfold i in H3. destruct p; destruct H3.
        + exists v, j. auto.
      - intros H. destruct (Z.eq_dec s (vf_ptr v)) as [E|E]; [|auto]. right. split; [auto|].
        destruct (hook_at_vfn h v s a p k W Hv (eq_sym E) H) as (j & H1 & H2). exists j. split; auto. apply HL. auto. }
    assert (NV : map vf_obj (h_vfns h1) = map vf_obj (h_vfns h)).
    { rewrite Ev. apply map_upd_first_same. reflexivity. }
    assert (NP : map vf_ptr (h_vfns h1) = map vf_ptr (h_vfns h)).
    { rewrite Ev. apply map_upd_first_same. reflexivity. }
    assert (W1 : WH h1).
    { constructor.
      - rewrite NP. apply (wh_vptr h W).
      - rewrite NV. apply (wh_vobj h W).
      - intros y Hy. apply UI in Hy. destruct Hy as [[Hy _]| ->]; [apply (wh_iptr h W y Hy)|].
        cbn [vf_ifaces set_vf_ifaces]. unfold L. assert (Ni : ~ In (if_ptr i) (map if_ptr (vf_ifaces v))).
        { intros C. apply in_map_iff in C. destruct C as (j & C1 & C2). apply (Fa j C2). exact C1. }
        destruct (adj =? 0)%Z.
        + cbn [map]. constructor; [exact Ni|apply (wh_iptr h W v Hv)].
        + rewrite map_app. apply nodup_snoc; [apply (wh_iptr h W v Hv)|exact Ni].
      - assert (K : forall y j, In y (h_vfns h1) -> In j (vf_ifaces y) ->
                     (y = set_vf_ifaces L v /\ j = i) \/
                     (exists y0, In y0 (h_vfns h) /\ In j (vf_ifaces y0) /\ vf_ptr y0 = vf_ptr y)).
        { intros y j Hy Hj. apply UI in Hy. destruct Hy as [[Hy _]| ->].
          - right. exists y. auto.
          - cbn [vf_ifaces set_vf_ifaces] in Hj. apply HL in Hj. destruct Hj as [->|Hj]; [auto|]. right. exists v. auto. }
        intros v1 i1 v2 i2 A1 B1 A2 B2 E.
        destruct (K v1 i1 A1 B1) as [[-> ->]|(y1 & C1 & C2 & C3)]; destruct (K v2 i2 A2 B2) as [[-> ->]|(y2 & D1 & D2 & D3)].
        + auto.
        + pose proof (wh_fresh_i h W y2 i2 D1 D2). cbn [if_obj i] in E. lia.
        + pose proof (wh_fresh_i h W y1 i1 C1 C2). cbn [if_obj i] in E. lia.
        + rewrite <- C3, <- D3. apply (wh_iobj h W y1 i1 y2 i2); auto.
      - intros y j p Hy Hj. apply UI in Hy. destruct Hy as [[Hy _]| ->]; [apply (wh_sorted h W y j p Hy Hj)|].
        cbn [vf_ifaces set_vf_ifaces] in Hj. apply HL in Hj. destruct Hj as [->|Hj]; [destruct p; constructor|].
        apply (wh_sorted h W v j p Hv Hj).
      - intros s a p k H. apply HA in H. apply (wh_entry h W s a p k H).
      - intros id e H. destruct (wh_hook h W id e H) as (k & K1 & K2). exists k. split; auto. apply HA. auto.
      - apply (wh_nid h W).
      - apply (wh_delegs h W).
      - apply (wh_dnd h W).
      - intros y j Hy Hj. cbn [h_nxt h1 set_nxt]. apply UI in Hy. destruct Hy as [[Hy _]| ->].
        + pose proof (wh_fresh_i h W y j Hy Hj). lia.
        + cbn [vf_ifaces set_vf_ifaces] in Hj. apply HL in Hj. destruct Hj as [->|Hj]; [cbn; lia|].
          pose proof (wh_fresh_i h W v j Hv Hj). lia.
      - intros n Hn. pose proof (wh_fresh_n h W n Hn). cbn [h_nxt h1 set_nxt]. lia. }
    exists h1, (h_nxt h), (set_vf_ifaces L v), i. split; [reflexivity|]. split; [exact W1|].
    split.
    { rewrite <- Eo. apply (get_vfn_in h1 (set_vf_ifaces L v)); [apply (wh_vobj h1 W1)|]. apply UI. right. reflexivity. }
    split; [cbn [vf_ifaces set_vf_ifaces]; apply HL; auto|]. repeat (split; [reflexivity|]). split; [exact HA|].
    split; [apply (upd_msk h h1 v L Ev)|]. split; [apply (upd_thunks h h1 v L Ev)|].
    split.
    { intros w Hw Hn. apply UI in Hw. destruct Hw as [[Hw _]| ->]; auto. exfalso. apply Hn. exact Eo. }
    split; [intros j Hj; apply HL; exact Hj|]. repeat (split; [reflexivity|]). split; [cbn; lia|]. repeat (split; [reflexivity|]).
    right. split; [reflexivity|]. split; [exact Fa|]. split; [reflexivity|]. reflexivity.
Qed.

(** *** Appending the hook *)
Lemma set_hooks_same : forall p l i, hooks_of p (set_hooks p l i) = l.
Proof. intros [|] l i; reflexivity. Qed.
Lemma set_hooks_other : forall p q l i, p <> q -> hooks_of q (set_hooks p l i) = hooks_of q i.
Proof. intros [|] [|] l i H; congruence || reflexivity. Qed.
Lemma set_hooks_obj : forall p l i, if_obj (set_hooks p l i) = if_obj i.
Proof. intros [|]; reflexivity. Qed.
Lemma set_hooks_ptr : forall p l i, if_ptr (set_hooks p l i) = if_ptr i.
Proof. intros [|]; reflexivity. Qed.

Definition push_hook (h : hs) (vo io : nat) (post : bool) (e : entry) : hs * Z :=
  let nid := h_nxt h in
  let (ids', k) := id_new (h_ids h) e 0 in
  let id := (Z.of_nat k + 1)%Z in
  let hk := Hook nid (en_plug e) (en_offs e) (en_handler e) id false in
  let h5 := set_delegs (set_nxt (set_ids h ids') (S nid)) (nid :: h_delegs h) in
  (set_vfns h5 (upd_first (vfn_is vo)
     (fun v => set_vf_ifaces
        (upd_first (fun i => if_obj i =? io)
           (fun i => set_hooks post (hooks_of post i ++ [hk]) i) (vf_ifaces v)) v)
     (h_vfns h5)), id).

Lemma upd_first_ext : forall {A} (p : A -> bool) f g l,
  (forall x, In x l -> p x = true -> f x = g x) -> upd_first p f l = upd_first p g l.
Proof.
  intros A p f g l. induction l as [|a l IH]; intros H; cbn [upd_first]; [reflexivity|].
  destruct (p a) eqn:E.
  - rewrite (H a); cbn; auto.
  - rewrite IH; auto. intros x Hx. apply H. cbn. auto.
Qed.

Lemma sorted_hd_lt : forall (l : list hook) n, (forall k, In k l -> hk_nid k < n) ->
  StronglySorted lt (map hk_nid l) -> forall k, hk_nid k = n -> StronglySorted lt (map hk_nid (l ++ [k])).
Proof.
  intros l n H S k E. rewrite map_app. apply sorted_snoc; auto. intros y Hy. apply in_map_iff in Hy.
  destruct Hy as (x & <- & Hx). rewrite E. auto.
Qed.

Lemma push_hook_spec : forall h vo io post e v i, WH h -> get_vfn h vo = Some v -> In i (vf_ifaces v) -> if_obj i = io ->
  en_free e = false -> en_vfnptr e = vf_ptr v -> en_adj e = if_ptr i -> en_post e = post -> en_nid e = h_nxt h ->
  exists h1 id hk v1, push_hook h vo io post e = (h1, id) /\ WH h1 /\
    hk = Hook (h_nxt h) (en_plug e) (en_offs e) (en_handler e) id false /\
    (forall s a p k, hook_at h1 s a p k <-> hook_at h s a p k \/ (s = vf_ptr v /\ a = if_ptr i /\ p = post /\ k = hk)) /\
    query_hook (h_ids h) id = None /\ query_hook (h_ids h1) id = Some e /\
    (forall x, x <> id -> query_hook (h_ids h1) x = query_hook (h_ids h) x) /\
    map msk (h_vfns h1) = map msk (h_vfns h) /\ vfn_thunks h1 = vfn_thunks h /\
    get_vfn h1 vo = Some v1 /\ vf_mans v1 = vf_mans v /\ vf_ptr v1 = vf_ptr v /\
    vf_ifaces v1 = upd_first (fun j => if_obj j =? io) (set_hooks post (hooks_of post i ++ [hk])) (vf_ifaces v) /\
    h_vfns h1 = upd_first (vfn_is vo) (set_vf_ifaces (vf_ifaces v1)) (h_vfns h) /\
    (forall w, In w (h_vfns h1) -> vf_obj w <> vo -> In w (h_vfns h)) /\
    (forall j, In j (vf_ifaces v1) -> j = set_hooks post (hooks_of post i ++ [hk]) i \/ (In j (vf_ifaces v) /\ if_obj j <> io)) /\
    In (set_hooks post (hooks_of post i ++ [hk]) i) (vf_ifaces v1) /\
    h_pfs h1 = h_pfs h /\ h_mans h1 = h_mans h /\ h_mem h1 = h_mem h /\ h_vt h1 = h_vt h /\
    h_delegs h1 = h_nxt h :: h_delegs h /\ h_thunks h1 = h_thunks h /\ h_nxt h1 = S (h_nxt h) /\ h_mshi h1 = h_mshi h /\
    h_tr h1 = h_tr h.
Proof.
  intros h vo io post e v i W Hg Hi Eio Ef Ep Ea Epo En.
  destruct (get_vfn_obj h vo v Hg) as [Hv Eo].
  destruct (id_new (h_ids h) e 0) as [ids' n] eqn:EN.
  destruct (id_new_query (h_ids h) e ids' n Ef EN) as (Q1 & Q2 & Q3). set (id := (Z.of_nat n + 1)%Z) in *.
  set (hk := Hook (h_nxt h) (en_plug e) (en_offs e) (en_handler e) id false).
  set (i1 := set_hooks post (hooks_of post i ++ [hk]) i).
  set (L := upd_first (fun j => if_obj j =? io) (set_hooks post (hooks_of post i ++ [hk])) (vf_ifaces v)).
  set (h1 := fst (push_hook h vo io post e)).
  assert (Nio : NoDup (map if_obj (vf_ifaces v))).
  { assert (G : forall l, (forall j, In j l -> In j (vf_ifaces v)) -> NoDup (map if_ptr l) -> NoDup (map if_obj l)).
    { induction l as [|a l IH]; intros Hin Hnd; cbn [map] in *; [constructor|]. inversion Hnd as [|? ? H1 H2]; subst.
      constructor.
      - intros C. apply in_map_iff in C. destruct C as (b & C1 & C2). apply H1. apply in_map_iff. exists b. split; auto.
        apply (wh_iobj h W v b v a Hv (Hin b (or_intror C2)) Hv (Hin a (or_introl eq_refl)) C1).
      - apply IH; auto. intros j Hj. apply Hin. cbn. auto. }
    apply G; auto. apply (wh_iptr h W v Hv). }
  assert (Uq : forall j, In j (vf_ifaces v) -> if_obj j = io -> j = i).
  { intros j Hj Ej. apply (nodup_key_inj if_obj (vf_ifaces v)); auto. congruence. }
  assert (EL : upd_first (fun j => if_obj j =? io) (fun j => set_hooks post (hooks_of post j ++ [hk]) j) (vf_ifaces v) = L).
  { unfold L. apply upd_first_ext. intros x Hx Ex. apply Nat.eqb_eq in Ex. rewrite (Uq x Hx Ex). reflexivity. }
  assert (Ev : h_vfns h1 = upd_first (vfn_is (vf_obj v)) (set_vf_ifaces L) (h_vfns h)).
  { unfold h1, push_hook. rewrite EN. cbn [fst h_vfns set_vfns set_delegs set_nxt set_ids]. rewrite Eo.
    apply upd_first_ext. intros w Hw Ew. apply (sel_vfn_is vo) in Ew.
    assert (w = v) by (apply (nodup_key_inj vf_obj (h_vfns h)); auto; [apply (wh_vobj h W)|congruence]). subst w.
    fold id hk. rewrite EL. reflexivity. }
  assert (HL : forall j, In j L <-> (In j (vf_ifaces v) /\ if_obj j <> io) \/ j = i1).
  { intros j. unfold L. rewrite (in_upd_first _ if_obj io) by (auto using sel_iface_obj). split.
    - intros [H|(x & H1 & H2 & H3)]; auto. right. rewrite (Uq x H1 H2) in H3. exact H3.
    - intros [H| ->]; auto. right. exists i. auto. }
  assert (Eid : h_ids h1 = ids') by (unfold h1, push_hook; rewrite EN; reflexivity).
  assert (Ed : h_delegs h1 = h_nxt h :: h_delegs h) by (unfold h1, push_hook; rewrite EN; reflexivity).
  assert (Enx : h_nxt h1 = S (h_nxt h)) by (unfold h1, push_hook; rewrite EN; reflexivity).
  pose proof (upd_in h h1 v L (wh_vobj h W) Hv Ev) as UI.
  pose proof (upd_hook_at h h1 v L (wh_vobj h W) (wh_vptr h W) Hv Ev) as UH.
  assert (Fn : forall s a p k, hook_at h s a p k -> hk_nid k < h_nxt h).
  { intros s a p k H. apply (wh_fresh_n h W). eapply hook_in_delegs; eauto. }
  assert (HA : forall s a p k, hook_at h1 s a p k <->
     hook_at h s a p k \/ (s = vf_ptr v /\ a = if_ptr i /\ p = post /\ k = hk)).
  { intros s a p k. rewrite UH. split.
    - intros [[_ H]|[-> (j & H1 & H2 & H3)]]; auto. apply HL in H1. destruct H1 as [[H1 _]| ->].
      + left. exists v, j. auto.
      + unfold i1 in H2, H3. rewrite set_hooks_ptr in H2. destruct (Bool.bool_dec post p) as [Ebp|Nbp].
        * rewrite Ebp, set_hooks_same in H3. rewrite in_app_iff in H3. cbn [In] in H3.
          destruct H3 as [H3|[H3|[]]]; [left; exists v, i; auto|]. right. repeat split; auto.
        * rewrite set_hooks_other in H3 by auto. left. exists v, i. auto.
    - intros [H|(-> & -> & -> & ->)].
      + destruct (Z.eq_dec s (vf_ptr v)) as [E|E]; [|auto]. right. split; [auto|].
        destruct (hook_at_vfn h v s a p k W Hv (eq_sym E) H) as (j & H1 & H2 & H3).
        destruct (Nat.eq_dec (if_obj j) io) as [Ej|Ej].
        * rewrite (Uq j H1 Ej) in H2, H3. exists i1. split; [apply HL; auto|]. unfold i1. rewrite set_hooks_ptr. split; [auto|].
          destruct (Bool.bool_dec post p) as [Ebp|Nbp].
          { rewrite <- Ebp, set_hooks_same. apply in_app_iff. left. congruence. }
          rewrite set_hooks_other by auto. auto.
        * exists j. split; [apply HL; auto|auto].
      + right. split; [auto|]. exists i1. split; [apply HL; auto|]. unfold i1. rewrite set_hooks_ptr, set_hooks_same.
        split; [auto|]. apply in_app_iff. right. left. reflexivity. }
  assert (NV : map vf_obj (h_vfns h1) = map vf_obj (h_vfns h)).
  { rewrite Ev. apply map_upd_first_same. reflexivity. }
  assert (NP : map vf_ptr (h_vfns h1) = map vf_ptr (h_vfns h)).
  { rewrite Ev. apply map_upd_first_same. reflexivity. }
  assert (EP : map if_ptr L = map if_ptr (vf_ifaces v)).
  { unfold L. apply map_upd_first_same. intros x _ _. apply set_hooks_ptr. }
  assert (Idn : forall s a p k, hook_at h s a p k -> hk_id k <> id).
  { intros s a p k H C. destruct (wh_entry h W s a p k H) as (e' & G & _). rewrite C in G. congruence. }
  assert (W1 : WH h1).
  { constructor.
    - rewrite NP. apply (wh_vptr h W).
    - rewrite NV. apply (wh_vobj h W).
    - intros y Hy. apply UI in Hy. destruct Hy as [[Hy _]| ->]; [apply (wh_iptr h W y Hy)|].
      cbn [vf_ifaces set_vf_ifaces]. rewrite EP. apply (wh_iptr h W v Hv).
    - assert (K : forall y j, In y (h_vfns h1) -> In j (vf_ifaces y) ->
                   (exists y0 j0, In y0 (h_vfns h) /\ In j0 (vf_ifaces y0) /\ vf_ptr y0 = vf_ptr y /\ if_obj j0 = if_obj j /\ if_ptr j0 = if_ptr j)).
      { intros y j Hy Hj. apply UI in Hy. destruct Hy as [[Hy _]| ->].
        - exists y, j. auto.
        - cbn [vf_ifaces set_vf_ifaces] in Hj. apply HL in Hj. destruct Hj as [[Hj _]| ->]; [exists v, j; auto|].
          exists v, i. unfold i1. rewrite set_hooks_obj, set_hooks_ptr. auto. }
      intros v1 j1 v2 j2 A1 B1 A2 B2 E.
      destruct (K v1 j1 A1 B1) as (y1 & l1 & C1 & C2 & C3 & C4 & C5).
      destruct (K v2 j2 A2 B2) as (y2 & l2 & D1 & D2 & D3 & D4 & D5).
      rewrite <- C3, <- D3, <- C5, <- D5. apply (wh_iobj h W y1 l1 y2 l2); auto. congruence.
    - intros y j p Hy Hj. apply UI in Hy. destruct Hy as [[Hy _]| ->]; [apply (wh_sorted h W y j p Hy Hj)|].
      cbn [vf_ifaces set_vf_ifaces] in Hj. apply HL in Hj. destruct Hj as [[Hj _]| ->]; [apply (wh_sorted h W v j p Hv Hj)|].
      unfold i1. destruct (Bool.bool_dec post p) as [Ebp|Nbp].
      + rewrite Ebp, set_hooks_same. apply (sorted_hd_lt _ (h_nxt h)); auto.
        * intros k Hk. apply (Fn (vf_ptr v) (if_ptr i) p k). exists v, i. auto.
        * apply (wh_sorted h W v i p Hv Hi).
      + rewrite set_hooks_other by auto. apply (wh_sorted h W v i p Hv Hi).
    - intros s a p k H. rewrite Eid. apply HA in H. destruct H as [H|(-> & -> & -> & ->)].
      + rewrite Q3 by (apply (Idn s a p k H)). apply (wh_entry h W s a p k H).
      + exists e. split; [exact Q2|]. repeat split; auto.
    - intros x ex H. rewrite Eid in H. destruct (Z.eq_dec x id) as [->|Nx].
      + assert (ex = e) by congruence. subst ex. exists hk. split; [|reflexivity]. apply HA. right. auto.
      + rewrite Q3 in H by exact Nx. destruct (wh_hook h W x ex H) as (k & K1 & K2). exists k. split; auto. apply HA. auto.
    - assert (Fe : forall x ex, query_hook (h_ids h) x = Some ex -> en_nid ex < h_nxt h).
      { intros x ex H. apply (wh_fresh_n h W). apply (wh_delegs h W). eauto. }
      intros x ex x' ex' H H' E. rewrite Eid in H, H'.
      destruct (Z.eq_dec x id) as [->|Nx]; destruct (Z.eq_dec x' id) as [->|Nx']; auto.
      + assert (ex = e) by congruence. subst ex. rewrite Q3 in H' by auto. pose proof (Fe _ _ H'). lia.
      + assert (ex' = e) by congruence. subst ex'. rewrite Q3 in H by auto. pose proof (Fe _ _ H). lia.
      + rewrite Q3 in H, H' by auto. apply (wh_nid h W x ex x' ex'); auto.
    - intros x. rewrite Ed, Eid. cbn [In]. rewrite (wh_delegs h W x). split.
      + intros [<-|(y & ey & H1 & H2)]; [exists id, e; auto|]. exists y, ey. split; auto. rewrite Q3; auto.
        intros ->. congruence.
      + intros (y & ey & H1 & H2). destruct (Z.eq_dec y id) as [->|Ny].
        * left. assert (ey = e) by congruence. subst ey. congruence.
        * right. exists y, ey. rewrite Q3 in H1; auto.
    - rewrite Ed. constructor; [|apply (wh_dnd h W)]. intros C. pose proof (wh_fresh_n h W _ C). lia.
    - intros y j Hy Hj. rewrite Enx. apply UI in Hy. destruct Hy as [[Hy _]| ->].
      + pose proof (wh_fresh_i h W y j Hy Hj). lia.
      + cbn [vf_ifaces set_vf_ifaces] in Hj. apply HL in Hj. destruct Hj as [[Hj _]| ->].
        * pose proof (wh_fresh_i h W v j Hv Hj). lia.
        * unfold i1. rewrite set_hooks_obj. pose proof (wh_fresh_i h W v i Hv Hi). lia.
    - intros x Hx. rewrite Ed in Hx. rewrite Enx. destruct Hx as [<-|Hx]; [lia|]. pose proof (wh_fresh_n h W x Hx). lia. }
  exists h1, id, hk, (set_vf_ifaces L v). split.
  { unfold h1, push_hook. rewrite EN. reflexivity. }
  split; [exact W1|]. split; [reflexivity|]. split; [exact HA|]. rewrite Eid. split; [exact Q1|]. split; [exact Q2|].
  split; [exact Q3|]. split; [apply (upd_msk h h1 v L Ev)|]. split; [apply (upd_thunks h h1 v L Ev)|]. split.
  { rewrite <- Eo. apply (get_vfn_in h1 (set_vf_ifaces L v)); [apply (wh_vobj h1 W1)|]. apply UI. right. reflexivity. }
  split; [reflexivity|]. split; [reflexivity|]. split; [reflexivity|]. split.
  { rewrite Ev, Eo. reflexivity. }
  split.
  { intros w Hw Hn. apply UI in Hw. destruct Hw as [[Hw _]| ->]; auto. exfalso. apply Hn. exact Eo. }
  split.
  { intros j Hj. cbn [vf_ifaces set_vf_ifaces] in Hj. apply HL in Hj. destruct Hj as [Hj| ->]; auto. }
  split; [cbn [vf_ifaces set_vf_ifaces]; apply HL; auto|].
  unfold h1, push_hook. rewrite EN. repeat (split; [reflexivity|]). reflexivity.
Qed.

(** ** AddHook *)
Lemma iobj_nodup : forall h v, WH h -> In v (h_vfns h) -> NoDup (map if_obj (vf_ifaces v)).
Proof.
  intros h v W Hv.
  assert (G : forall l, (forall j, In j l -> In j (vf_ifaces v)) -> NoDup (map if_ptr l) -> NoDup (map if_obj l)).
  { induction l as [|a l IH]; intros Hin Hnd; cbn [map] in *; [constructor|]. inversion Hnd as [|? ? H1 H2]; subst.
    constructor.
    - intros C. apply in_map_iff in C. destruct C as (b & C1 & C2). apply H1. apply in_map_iff. exists b. split; auto.
      apply (wh_iobj h W v b v a Hv (Hin b (or_intror C2)) Hv (Hin a (or_introl eq_refl)) C1).
    - apply IH; auto. intros j Hj. apply Hin. cbn. auto. }
  apply G; auto. apply (wh_iptr h W v Hv).
Qed.

Lemma find_ext : forall {A K} (p : A -> bool) (key : A -> K) k l1 l2, selects p key k ->
  NoDup (map key l1) -> NoDup (map key l2) -> (forall x, key x = k -> (In x l1 <-> In x l2)) -> find p l1 = find p l2.
Proof.
  intros A K p key k l1 l2 S N1 N2 H. destruct (find p l2) as [y|] eqn:E.
  - apply (find_key p key k l2 y S N2) in E. apply (find_key p key k l1 y S N1). destruct E. split; auto. apply H; auto.
  - apply (find_key_none p key k l1 S). pose proof (proj1 (find_key_none p key k l2 S) E) as E'.
    intros x Hx C. apply (E' x); auto. apply H; auto.
Qed.

(** How the interfaces of an existing vfnptr look after a hook was added. *)
Definition iface_grows (post : bool) (hk : hook) (hit : bool) (o o' : option iface) (fresh : nat) : Prop :=
  match o, o' with
  | Some i, Some i' => if_obj i' = if_obj i /\ if_ptr i' = if_ptr i /\
      forall p, hooks_of p i' = hooks_of p i ++ (if hit && Bool.eqb p post then [hk] else [])
  | None, Some i' => hit = true /\ fresh <= if_obj i' /\
      forall p, hooks_of p i' = (if Bool.eqb p post then [hk] else [])
  | None, None => hit = false
  | Some _, None => False
  end.

Definition vfn_keeps (w w' : vfn) : Prop :=
  vf_obj w' = vf_obj w /\ vf_ptr w' = vf_ptr w /\ vf_orig w' = vf_orig w /\ vf_thunk w' = vf_thunk w.

Record added (h h' : hs) (slot adj : Z) (post : bool) (hk : hook) : Prop := {
  ad_hooks : forall s a p k, hook_at h' s a p k <-> hook_at h s a p k \/ (s = slot /\ a = adj /\ p = post /\ k = hk);
  ad_fresh : h_nxt h <= hk_nid hk < h_nxt h';
  ad_pos : (0 < hk_id hk)%Z;
  ad_new : query_hook (h_ids h) (hk_id hk) = None;
  ad_query : exists e, query_hook (h_ids h') (hk_id hk) = Some e /\ entry_for e slot adj post hk;
  ad_other : forall x, x <> hk_id hk -> query_hook (h_ids h') x = query_hook (h_ids h) x;
  ad_delegs : h_delegs h' = hk_nid hk :: h_delegs h;
  ad_pfs : h_pfs h' = h_pfs h; ad_vt : h_vt h' = h_vt h;
  ad_tr : tr_more hook_obs h h';
  ad_vfns : forall w, In w (h_vfns h) -> exists w', In w' (h_vfns h') /\ vfn_keeps w w' /\
            forall a, iface_grows post hk (Z.eqb (vf_ptr w) slot && Z.eqb a adj)
                        (find (iface_at a) (vf_ifaces w)) (find (iface_at a) (vf_ifaces w')) (h_nxt h);
  ad_front : forall w x, In w (h_vfns h) -> hd_error (vf_mans w) = Some x ->
             exists w' x', In w' (h_vfns h') /\ vf_obj w' = vf_obj w /\ hd_error (vf_mans w') = Some x' /\
               (x' = x \/ vf_ptr w = slot);
  ad_thunks : forall t, In t (h_thunks h) -> In t (h_thunks h');
  ad_mans : forall w, In w (h_vfns h) -> exists w', In w' (h_vfns h') /\ vf_obj w' = vf_obj w /\ vf_ptr w' = vf_ptr w /\
            (vf_ptr w <> slot -> vf_mans w' = vf_mans w) /\
            (vf_ptr w = slot -> exists o, man_plug h' o = Some (hk_plug hk) /\ man_inserted h' o (vf_mans w) (vf_mans w'));
  ad_plug : forall o p, man_plug h o = Some p -> man_plug h' o = Some p;
  ad_first : (forall w, In w (h_vfns h) -> vf_ptr w <> slot) ->
             exists w' o, In w' (h_vfns h') /\ vf_ptr w' = slot /\ vf_mans w' = [o];
  ad_ver : forall o z, man_ver h o = Some z -> man_ver h' o = Some z;
  ad_slots : forall w', In w' (h_vfns h') -> vf_ptr w' = slot \/ exists w, In w (h_vfns h) /\ vf_ptr w = vf_ptr w' }.

Lemma find_upd_iface : forall a o f l, (forall i, if_ptr (f i) = if_ptr i) ->
  find (iface_at a) (upd_first (fun i => if_obj i =? o) f l) =
  match find (iface_at a) l with
  | Some i => find (iface_at a) (upd_first (fun i => if_obj i =? o) f l)
  | None => None
  end.
Proof.
  intros a o f l Hf. destruct (find (iface_at a) l) as [i|] eqn:E; [reflexivity|].
  apply (find_key_none _ if_ptr a _ (sel_iface_at a)). intros x Hx.
  pose proof (proj1 (find_key_none _ if_ptr a _ (sel_iface_at a)) E) as N.
  intros C. assert (G : In (if_ptr x) (map if_ptr l)).
  { replace (map if_ptr l) with (map if_ptr (upd_first (fun i => if_obj i =? o) f l)); [apply in_map; auto|].
    apply map_upd_first_same. intros y _ _. apply Hf. }
  apply in_map_iff in G. destruct G as (y & G1 & G2). apply (N y G2). congruence.
Qed.

Lemma WS_new_man : forall h h' m, h_mans h' = h_mans h ++ [m] -> h_mshi h' = h_mshi h -> mn_vfns m = [] ->
  (forall y, In y (h_mans h) -> mn_obj y <> mn_obj m) ->
  (forall y, In y (h_mans h) -> mn_pf y <> mn_pf m) -> WS h -> WS h'.
Proof.
  intros h h' m Em Eh Ev Ho Hp S.
  assert (G : forall o, get_man h' o = match get_man h o with Some y => Some y | None => if mn_obj m =? o then Some m else None end).
  { intros o. unfold get_man. rewrite Em, find_snoc. reflexivity. }
  assert (P : forall o f, man_pf h' o = Some f -> man_pf h o = Some f \/ (get_man h o = None /\ o = mn_obj m /\ f = mn_pf m)).
  { intros o f. unfold man_pf. rewrite G. destruct (get_man h o) as [y|] eqn:E; [auto|].
    destruct (mn_obj m =? o) eqn:B; cbn [option_map]; [|discriminate]. apply Nat.eqb_eq in B.
    intros H. injection H as <-. auto. }
  assert (P2 : forall o f, man_pf h o = Some f -> man_pf h' o = Some f).
  { intros o f. unfold man_pf. rewrite G. destruct (get_man h o); [auto|discriminate]. }
  assert (PI : forall o f, man_pf h o = Some f -> f <> mn_pf m).
  { intros o f. unfold man_pf. destruct (get_man h o) as [y|] eqn:E; [|discriminate].
    cbn [option_map]. intros H. injection H as <-. apply Hp. apply (get_man_obj h o y E). }
  assert (A : forall o, active h' o <-> active h o).
  { intros o. unfold active, vfns_of. rewrite G. destruct (get_man h o) as [y|]; [tauto|].
    destruct (mn_obj m =? o); cbn [option_map]; [|tauto]. rewrite Ev.
    split; intros (x & l & H); discriminate. }
  constructor.
  - intros o1 o2 f H1 H2. apply P in H1. apply P in H2.
    destruct H1 as [H1|(_ & -> & ->)]; destruct H2 as [H2|(_ & -> & E2)].
    + apply (ws_unshared h S o1 o2 f); auto.
    + exfalso. apply (PI o1 f H1). auto.
    + exfalso. apply (PI o2 _ H2). auto.
    + reflexivity.
  - intros o H. apply A in H. destruct (ws_act h S o H) as (f & F1 & F2). exists f. rewrite Eh. auto.
  - intros f o H. rewrite Eh in H. destruct (ws_reg h S f o H) as (F1 & F2). split; auto. apply A. auto.
Qed.

Lemma WR_new_man : forall h h' m, h_mans h' = h_mans h ++ [m] -> h_tr h' = h_tr h -> mn_vfns m = [] -> WR h -> WR h'.
Proof.
  intros h h' m Em Et Ev [R A]. split; [|rewrite Et; exact A]. intros o. rewrite Et, (R o). f_equal. unfold act_num, vfns_of, get_man. rewrite Em, find_snoc.
  destruct (find (man_is o) (h_mans h)) as [y|]; [reflexivity|]. destruct (man_is o m); cbn [option_map]; [rewrite Ev|]; reflexivity.
Qed.

Lemma add_hook_push : forall h plug mode ifp offs pf handler post info, pf_valid h pf = Some info ->
  (mode = ADVP \/ (ifp + offs)%Z <> 0%Z) ->
  add_hook h plug mode ifp offs pf handler post =
  let (slot, adj) := hook_target h mode ifp offs info in
  let (h1, vo) := get_vfnptr h slot in
  let (h2, mo) := get_hookman h1 plug pf info in
  match add_hookman h2 vo mo with
  | None => None
  | Some h3 =>
      match get_iface h3 vo adj with
      | None => None
      | Some (h4, io) => Some (push_hook h4 vo io post (Entry false info slot adj plug offs (h_nxt h4) handler post))
      end
  end.
Proof.
  intros h plug mode ifp offs pf handler post info E Hm. unfold add_hook. rewrite E.
  assert (B : (match mode with ADVP => false | _ => Z.eqb (ifp + offs) 0 end) = false).
  { destruct Hm as [->|Hm]; [reflexivity|]. destruct mode; auto; apply Z.eqb_neq; auto. }
  rewrite B. destruct (hook_target h mode ifp offs info) as [slot adj].
  destruct (get_vfnptr h slot) as [h1 vo]. destruct (get_hookman h1 plug pf info) as [h2 mo].
  destruct (add_hookman h2 vo mo) as [h3|]; [|reflexivity]. destruct (get_iface h3 vo adj) as [[h4 io]|]; [|reflexivity].
  unfold push_hook. cbn [en_plug en_offs en_handler].
  destruct (id_new (h_ids h4) (Entry false info slot adj plug offs (h_nxt h4) handler post) 0). reflexivity.
Qed.

Lemma thunks_vsk : forall l l', map vsk l' = map vsk l ->
  flat_map (fun v => match vf_thunk v with Some t => [t] | None => [] end) l' =
  flat_map (fun v => match vf_thunk v with Some t => [t] | None => [] end) l.
Proof.
  induction l as [|a l IH]; intros [|b l'] H; cbn [map] in H; try discriminate; [reflexivity|].
  injection H as E1 E2 E3 E4 E5 E6. cbn [flat_map]. rewrite E3. f_equal. apply IH. exact E6.
Qed.

Lemma WT_ext : forall h h' ts, WT h ts -> vfn_thunks h' = vfn_thunks h -> h_thunks h' = h_thunks h -> h_nxt h <= h_nxt h' -> WT h' ts.
Proof.
  intros h h' ts T E1 E2 E3. constructor.
  - rewrite E1. apply (wt_nd h ts T).
  - intros t. rewrite E1, E2. apply (wt_live h ts T).
  - rewrite E2. apply (wt_tnd h ts T).
  - apply (wt_task h ts T).
  - intros t H. rewrite E2 in H. pose proof (wt_fresh h ts T t H). lia.
  - intros t H. pose proof (wt_freshk h ts T t H). lia.
Qed.

Lemma pf_valid_some : forall h pf i, pf_valid h pf = Some i <-> h_pfs h pf = Some i /\ pf_ver i <> (-1)%Z.
Proof.
  intros h pf i. unfold pf_valid. destruct (h_pfs h pf) as [j|]; [|split; [discriminate|intros [H _]; discriminate]].
  destruct (pf_ver j =? -1)%Z eqn:E.
  - apply Z.eqb_eq in E. split; [discriminate|]. intros [H1 H2]. congruence.
  - apply Z.eqb_neq in E. split; [intros H; injection H as <-; auto|]. intros [H1 H2]. auto.
Qed.

Lemma push_WD : forall h h1, WD h -> h_delegs h1 = h_nxt h :: h_delegs h -> h_nxt h1 = S (h_nxt h) -> h_tr h1 = h_tr h -> WD h1.
Proof.
  intros h h1 [D1 D2] Ed En Et. unfold WD. rewrite Ed, En, Et. split.
  - apply (Permutation_NoDup (l := h_nxt h :: (deleted (h_tr h) ++ h_delegs h))); [apply Permutation_middle|].
    constructor; auto. intros C. pose proof (D2 _ C). lia.
  - intros n Hn. rewrite in_app_iff in Hn. cbn [In] in Hn.
    destruct Hn as [Hn|[<-|Hn]]; [|lia|]; assert (n < h_nxt h) by (apply D2; apply in_app_iff; auto); lia.
Qed.

Lemma find_upd_vfn : forall o x f l, (forall v, vf_obj (f v) = vf_obj v) ->
  find (vfn_is x) (upd_first (vfn_is o) f l) =
  if x =? o then option_map f (find (vfn_is o) l) else find (vfn_is x) l.
Proof.
  intros o x f l Hf. induction l as [|a l IH]; cbn [upd_first find].
  - destruct (x =? o); reflexivity.
  - destruct (vfn_is o a) eqn:Ea; cbn [find].
    + assert (Eo : vf_obj a = o) by (apply (sel_vfn_is o); auto).
      destruct (x =? o) eqn:Ex.
      * apply Nat.eqb_eq in Ex. subst x. unfold vfn_is. rewrite Hf, Eo, Nat.eqb_refl. reflexivity.
      * unfold vfn_is at 1 3. rewrite Hf, Eo. rewrite Nat.eqb_sym, Ex. reflexivity.
    + rewrite IH. destruct (x =? o) eqn:Ex.
      * apply Nat.eqb_eq in Ex. subst x. rewrite Ea. reflexivity.
      * reflexivity.
Qed.

Lemma get_upd_vfn : forall h h' o x f, h_vfns h' = upd_first (vfn_is o) f (h_vfns h) ->
  (forall v, vf_obj (f v) = vf_obj v) ->
  get_vfn h' x = if x =? o then option_map f (get_vfn h o) else get_vfn h x.
Proof. intros h h' o x f E Hf. unfold get_vfn. rewrite E. apply find_upd_vfn. exact Hf. Qed.

Theorem add_hook_spec : forall m0 k plug mode ifp offs pf handler post info slot adj,
  WF m0 k -> pf_valid (c_h k) pf = Some info -> (mode = ADVP \/ (ifp + offs)%Z <> 0%Z) ->
  hook_target (c_h k) mode ifp offs info = (slot, adj) ->
  exists h' hk, add_hook (c_h k) plug mode ifp offs pf handler post = Some (h', hk_id hk) /\
    hk_plug hk = plug /\ hk_offs hk = offs /\ hk_handler hk = handler /\ hk_paused hk = false /\
    added (c_h k) h' slot adj post hk /\
    WF m0 (Core h' (c_cs k) (c_tasks k)) /\
    (WR (c_h k) -> WR h') /\ (WD (c_h k) -> WD h') /\
    ((forall m, In m (h_mans (c_h k)) -> mn_pf m = pf -> mn_plug m = plug) -> WS (c_h k) -> WS h') /\
    (exists w' mo, In w' (h_vfns h') /\ vf_ptr w' = slot /\ In mo (vf_mans w') /\
       man_plug h' mo = Some plug /\ man_pf h' mo = Some pf) /\
    (exists e, query_hook (h_ids h') (hk_id hk) = Some e /\ en_info e = info).
Proof.
  intros m0 k plug mode ifp offs pf handler post info slot adj [M H N T] Ef Hm Et.
  set (h := c_h k) in *. set (ts := c_tasks k) in *.
  rewrite (add_hook_push h plug mode ifp offs pf handler post info Ef Hm), Et.
  apply pf_valid_some in Ef. destruct Ef as [Epf Ever].
  destruct (get_vfnptr_spec m0 h ts slot M H N T)
    as (h1 & vo & v & E1 & Hg1 & Ep1 & M1 & H1 & N1 & T1 & S1 & HA1 & Epf1 & Ema1 & Eid1 & Eme1 & Evt1 & Ed1 & En1 & Cv).
  rewrite E1.
  destruct (get_hookman_spec m0 h1 plug pf info M1) as
    (h2 & mo & m & E2 & Hgm2 & Emp & Emf & M2 & Ev2 & Epf2 & Eid2 & Eme2 & Evt2 & Ed2 & Eth2 & En2 & Ehi2 & Etr2 & Cm);
    [congruence|exact Ever|].
  rewrite E2. assert (Hg2 : get_vfn h2 vo = Some v) by (unfold get_vfn; rewrite Ev2; exact Hg1).
  destruct (add_hookman_spec m0 h2 vo mo v m M2 Hg2 Hgm2) as (h3 & l' & E3 & M3 & HS3 & Ek3 & S3 & Ev3 & [Hl' Hins] & Hfr).
  rewrite E3.
  assert (H2 : WH h2). { apply (WH_ext h1 h2 H1); auto. rewrite Ev2. reflexivity. }
  assert (H3 : WH h3). { apply (WH_ext h2 h3 H2); try apply HS3. rewrite (hsm_nxt _ _ HS3). lia. }
  assert (Hg3 : get_vfn h3 vo = Some (set_vf_mans l' v)).
  { rewrite (get_upd_vfn h2 h3 vo vo _ Ev3) by reflexivity. rewrite Nat.eqb_refl, Hg2. reflexivity. }
  destruct (get_vfn_obj h1 vo v Hg1) as [Hv1 Eo1].
  assert (N3 : WNx h3 vo).
  { intros y Hy. rewrite Ev3, Ev2 in Hy. rewrite (in_upd_first _ vf_obj vo) in Hy by (auto using sel_vfn_is; apply (wm_vobj m0 h1 M1)).
    destruct Hy as [[Hy Ny]|(x & Hx & Ex & ->)]; [apply (N1 y Hy)|]. destruct (N1 x Hx) as [Nx _]. split; [exact Nx|].
    intros C. exfalso. apply C. exact Ex. }
  destruct (get_iface_spec h3 vo _ adj H3 N3 Hg3) as
    (h4 & io & v4 & i & E4 & H4 & Hg4 & Hi4 & Eio & Eip & Ep4 & Em4 & HA4 & Emsk4 & Eth4 & Iw4 & Ij4 & Epf4 & Ema4 & Eid4 & Eme4 & Evt4 & Ed4 & Ets4 & En4 & Ehi4 & Etr4 & Ci4).
  rewrite E4. set (e := Entry false info slot adj plug offs (h_nxt h4) handler post).
  assert (Evf : en_vfnptr e = vf_ptr v4) by (cbn [en_vfnptr e]; rewrite Ep4; cbn [vf_ptr set_vf_mans]; auto).
  destruct (push_hook_spec h4 vo io post e v4 i H4 Hg4 Hi4 Eio eq_refl Evf (eq_sym Eip) eq_refl eq_refl) as
    (h5 & id & hk & v5 & E5 & H5 & Ehk & HA5 & Q1 & Q2 & Q3 & Emsk5 & Eth5 & Hg5 & Em5 & Ep5 & Eif5 & Ev5 & Iw5 & Ij5 & Ii5 & Epf5 & Ema5 & Eme5 & Evt5 & Ed5 & Ets5 & En5 & Ehi5 & Etr5).
  rewrite E5.
  assert (Ids4 : h_ids h4 = h_ids h) by (rewrite Eid4, (hsm_ids _ _ HS3), Eid2, Eid1; reflexivity).
  assert (Dl4 : h_delegs h4 = h_delegs h) by (rewrite Ed4, (hsm_delegs _ _ HS3), Ed2, Ed1; reflexivity).
  assert (HA : forall s a p k0, hook_at h4 s a p k0 <-> hook_at h s a p k0).
  { intros s a p k0. rewrite HA4, (hook_at_ext h2 h3 s a p k0 (hsm_vfns _ _ HS3)), (hook_at_ext h1 h2), HA1; [tauto|].
    rewrite Ev2. reflexivity. }
  assert (Nx : h_nxt h <= h_nxt h4) by (pose proof (hsm_nxt _ _ HS3); lia).
  exists h5, hk. rewrite Ehk. cbn [hk_id]. split; [reflexivity|]. rewrite <- Ehk.
  split; [rewrite Ehk; reflexivity|]. split; [rewrite Ehk; reflexivity|]. split; [rewrite Ehk; reflexivity|]. split; [rewrite Ehk; reflexivity|].
  assert (Evp : forall w, In w (h_vfns h) -> (vf_ptr w = slot <-> vf_obj w = vo)).
  { intros w Hw. assert (Hw1 : In w (h_vfns h1)).
    { destruct Cv as [->|(Cv1 & _)]; auto. rewrite Cv1. apply in_app_iff. auto. }
    split; intros E.
    - rewrite <- Eo1. f_equal. apply (nodup_key_inj vf_ptr (h_vfns h1)); auto; [apply (wm_vptr m0 h1 M1)|congruence].
    - rewrite <- Ep1. f_equal. apply (nodup_key_inj vf_obj (h_vfns h1)); auto; [apply (wm_vobj m0 h1 M1)|congruence]. }
  (* what becomes of an old vfnptr *)
  assert (Old : forall w, In w (h_vfns h) ->
     (vf_obj w = vo -> w = v) /\ (vf_obj w <> vo -> In w (h_vfns h5))).
  { intros w Hw. assert (Hw1 : In w (h_vfns h1)).
    { destruct Cv as [->|(Cv1 & _)]; auto. rewrite Cv1. apply in_app_iff. auto. }
    split.
    - intros E. apply (nodup_key_inj vf_obj (h_vfns h1)); auto; [apply (wm_vobj m0 h1 M1)|congruence].
    - intros Hn. rewrite Ev5. rewrite (in_upd_first _ vf_obj vo) by (auto using sel_vfn_is; apply (wh_vobj h4 H4)).
      left. split; auto.
      assert (In w (h_vfns h3)).
      { rewrite Ev3. rewrite (in_upd_first _ vf_obj vo) by (auto using sel_vfn_is; apply (wm_vobj m0 h2 M2)). left. rewrite Ev2. auto. }
      destruct Ci4 as [->|(_ & _ & _ & Ci4)]; auto. rewrite Ci4.
      rewrite (in_upd_first _ vf_obj vo) by (auto using sel_vfn_is; apply (wh_vobj h3 H3)). auto. }
  destruct (get_vfn_obj h5 vo v5 Hg5) as [Hv5 Eo5].
  destruct (get_vfn_obj h4 vo v4 Hg4) as [Hv4 Eo4].
  assert (Th5 : vfn_thunks h5 = vfn_thunks h1).
  { rewrite Eth5, Eth4. unfold vfn_thunks. rewrite (thunks_vsk _ _ (hsm_vfns _ _ HS3)), Ev2. reflexivity. }
  assert (Orig5 : vf_orig v5 = vf_orig v /\ vf_thunk v5 = vf_thunk v).
  { assert (G4 : vf_orig v4 = vf_orig v /\ vf_thunk v4 = vf_thunk v).
    { destruct Ci4 as [->|(_ & _ & _ & Ci4)].
      - rewrite Hg3 in Hg4. injection Hg4 as <-. auto.
      - rewrite (get_upd_vfn h3 h4 vo vo _ Ci4) in Hg4 by reflexivity. rewrite Nat.eqb_refl, Hg3 in Hg4.
        cbn [option_map] in Hg4. injection Hg4 as <-. auto. }
    rewrite (get_upd_vfn h4 h5 vo vo _ Ev5) in Hg5 by reflexivity. rewrite Nat.eqb_refl, Hg4 in Hg5. cbn [option_map] in Hg5.
    injection Hg5 as <-. exact G4. }
  assert (M5 : WM m0 h5).
  { apply (WM_ext_mu m0 h3 h5 M3); try congruence. pose proof (hsm_nxt _ _ HS3). lia. }
  split.
  { constructor.
    - intros s a p k0. rewrite HA5, HA, Ep4. cbn [vf_ptr set_vf_mans]. rewrite Ep1, Eip. tauto.
    - rewrite Ehk. cbn [hk_nid]. lia.
    - rewrite Ehk. cbn [hk_id]. apply (query_pos _ _ _ Q2).
    - rewrite Ehk. cbn [hk_id]. rewrite <- Ids4. exact Q1.
    - exists e. rewrite Ehk. cbn [hk_id]. split; [exact Q2|]. repeat split.
    - rewrite Ehk. cbn [hk_id]. intros x Hx. rewrite (Q3 x Hx), Ids4. reflexivity.
    - rewrite Ehk. cbn [hk_nid]. rewrite Ed5, Dl4. reflexivity.
    - rewrite Epf5, Epf4, (hsm_pfs _ _ HS3), Epf2, Epf1. reflexivity.
    - rewrite Evt5, Evt4, (hsm_vt _ _ HS3), Evt2, Evt1. reflexivity.
    - eapply tr_more_trans; [apply (ms_tr _ _ S1)|]. eapply tr_more_trans; [apply (tr_more_eq _ h1 h2); auto|].
      eapply tr_more_trans; [apply (ms_tr _ _ S3)|]. eapply tr_more_trans; [apply (tr_more_eq _ h3 h4); auto|].
      apply tr_more_eq. auto.
    - intros w Hw. destruct (Old w Hw) as [O1 O2]. destruct (Nat.eq_dec (vf_obj w) vo) as [Ew|Ew].
      + pose proof (O1 Ew) as Ewv. subst w. exists v5. split; [exact Hv5|]. split.
        { destruct Orig5 as [O3 O4]. repeat split; auto; [congruence|]. rewrite Ep5, Ep4. reflexivity. }
        intros a. rewrite Ep1, Z.eqb_refl. cbn [andb].
        assert (Hif : forall j, In j (vf_ifaces v5) <-> (In j (vf_ifaces v4) /\ if_ptr j <> adj) \/
                        (j = set_hooks post (hooks_of post i ++ [hk]) i)).
        { intros j. split.
          - intros Hj. destruct (Ij5 j Hj) as [->|[Hj1 Hj2]]; [auto|]. left. split; auto. intros C. apply Hj2.
            rewrite <- Eio. f_equal. apply (nodup_key_inj if_ptr (vf_ifaces v4)); auto; [apply (wh_iptr h4 H4 v4 Hv4)|congruence].
          - intros [[Hj1 Hj2]| ->]; auto. rewrite Eif5.
            rewrite (in_upd_first _ if_obj io) by (auto using sel_iface_obj, (iobj_nodup h4 v4)).
            left. split; auto. intros C. apply Hj2. rewrite <- Eip.
            apply (wh_iobj h4 H4 v4 j v4 i Hv4 Hj1 Hv4 Hi4). congruence. }
        assert (Ni : NoDup (map if_ptr (vf_ifaces v))) by (apply (wh_iptr h1 H1 v Hv1)).
        assert (Ni4 : NoDup (map if_ptr (vf_ifaces v4))) by (apply (wh_iptr h4 H4 v4 Hv4)).
        assert (Ni5 : NoDup (map if_ptr (vf_ifaces v5))) by (apply (wh_iptr h5 H5 v5 Hv5)).
        assert (F4 : forall b, b <> adj -> find (iface_at b) (vf_ifaces v4) = find (iface_at b) (vf_ifaces v)).
        { intros b Nb. apply (find_ext _ if_ptr b); auto using sel_iface_at. intros x Ex.
          destruct Ci4 as [->|(_ & _ & Ci4 & _)].
          - rewrite Hg3 in Hg4. injection Hg4 as <-. tauto.
          - rewrite Ci4. destruct (adj =? 0)%Z; [cbn [In]|rewrite in_app_iff; cbn [In]]; cbn [vf_ifaces set_vf_mans].
            + split; [intros [<-|H0]; [cbn in Ex; congruence|auto]|auto].
            + split; [intros [H0|[<-|[]]]; [auto|cbn in Ex; congruence]|auto]. }
        destruct (Z.eqb a adj) eqn:Ea.
        * apply Z.eqb_eq in Ea. subst a.
          assert (F5 : find (iface_at adj) (vf_ifaces v5) = Some (set_hooks post (hooks_of post i ++ [hk]) i)).
          { apply (find_key _ if_ptr adj); auto using sel_iface_at. split; [auto|]. rewrite set_hooks_ptr. auto. }
          assert (HK : forall p, hooks_of p (set_hooks post (hooks_of post i ++ [hk]) i) = hooks_of p i ++ (if Bool.eqb p post then [hk] else [])).
          { intros p. destruct (Bool.eqb p post) eqn:Bp.
            - apply eqb_prop in Bp. subst p. apply set_hooks_same.
            - rewrite app_nil_r. apply set_hooks_other. intros <-. rewrite eqb_reflx in Bp. discriminate. }
          rewrite F5. destruct Ci4 as [Ci4|(Ci1 & Ci2 & Ci3 & _)].
          { subst h4. rewrite Hg3 in Hg4. injection Hg4 as <-. cbn [vf_ifaces set_vf_mans] in Hi4.
            assert (F : find (iface_at adj) (vf_ifaces v) = Some i) by (apply (find_key _ if_ptr adj); auto using sel_iface_at).
            rewrite F. cbn [iface_grows]. rewrite set_hooks_obj, set_hooks_ptr. split; [reflexivity|]. split; [reflexivity|].
            intros p. rewrite HK. reflexivity. }
          assert (F : find (iface_at adj) (vf_ifaces v) = None) by (apply (find_key_none _ if_ptr adj); auto using sel_iface_at).
          rewrite F. cbn [iface_grows]. split; [reflexivity|]. rewrite set_hooks_obj. split.
          { rewrite Eio, Ci1. pose proof (hsm_nxt _ _ HS3). lia. }
          assert (Ei : i = Iface io adj [] []).
          { apply (nodup_key_inj if_ptr (vf_ifaces v4)); auto. rewrite Ci3.
            destruct (adj =? 0)%Z; [left; reflexivity|]. apply in_app_iff. right. left. reflexivity. }
          intros p. rewrite HK, Ei. destruct p; reflexivity.
        * apply Z.eqb_neq in Ea.
          assert (F5 : find (iface_at a) (vf_ifaces v5) = find (iface_at a) (vf_ifaces v4)).
          { apply (find_ext _ if_ptr a); auto using sel_iface_at. intros x Ex. rewrite Hif. split.
            - intros [[H0 _]| ->]; auto. rewrite set_hooks_ptr in Ex. congruence.
            - intros H0. left. split; auto. congruence. }
          rewrite F5, (F4 a Ea). destruct (find (iface_at a) (vf_ifaces v)) as [j|]; cbn [iface_grows]; [|reflexivity].
          split; [reflexivity|]. split; [reflexivity|]. intros p. cbn [andb]. rewrite app_nil_r. reflexivity.
      + exists w. split; [auto|]. split; [repeat split|]. intros a.
        assert (Np : (vf_ptr w =? slot)%Z = false) by (apply Z.eqb_neq; intros C; apply Ew; apply (Evp w Hw); auto).
        rewrite Np. cbn [andb]. destruct (find (iface_at a) (vf_ifaces w)); cbn [iface_grows]; [|reflexivity].
        split; [reflexivity|]. split; [reflexivity|]. intros p. cbn [andb]. rewrite app_nil_r. reflexivity.
    - intros w x Hw Hx. destruct (Old w Hw) as [O1 O2]. destruct (Nat.eq_dec (vf_obj w) vo) as [Ew|Ew].
      + exists v5. assert (Hn : vf_mans v5 <> []).
        { rewrite Em5, Em4. cbn [vf_mans set_vf_mans]. intros C. assert (G : In mo l') by (apply Hl'; auto). rewrite C in G. destruct G. }
        destruct (vf_mans v5) as [|y ly]; [congruence|]. exists y. split; [auto|]. split; [congruence|]. split; [reflexivity|].
        right. apply (Evp w Hw). exact Ew.
      + exists w, x. auto.
    - intros t Ht. rewrite Ets5, Ets4, (hsm_thunks _ _ HS3), Eth2.
      destruct Cv as [->|_]; [exact Ht|]. unfold get_vfnptr in E1.
      destruct (find (vfn_at slot) (h_vfns h)); [injection E1 as <- _; exact Ht|].
      destruct (odd_code (h_mem h slot)); injection E1 as <- _; cbn; auto.
    - assert (G : map mkey4 (h_mans h5) = map mkey4 (h_mans h2)) by (rewrite Ema5, Ema4; exact Ek3).
      intros w Hw. destruct (Old w Hw) as [O1 O2]. destruct (Nat.eq_dec (vf_obj w) vo) as [Ew|Ew].
      + pose proof (O1 Ew) as Ewv. subst w. exists v5. split; [exact Hv5|]. split; [congruence|]. split; [rewrite Ep5, Ep4; reflexivity|].
        split; [congruence|]. intros _. exists mo. split; [rewrite (mu_plug h2 h5 mo G); unfold man_plug; rewrite Hgm2, Ehk; cbn; congruence|].
        rewrite Em5, Em4. cbn [vf_mans set_vf_mans]. destruct Hins as [Hins|(I0 & l1 & l2 & ver & I1 & I2 & I3 & I4 & I5)]; [left; exact Hins|].
        right. split; [exact I0|]. exists l1, l2, ver. split; [exact I1|]. split; [exact I2|].
        split; [rewrite (mu_ver h2 h5 mo G); exact I3|].
        split; intros x Hx; rewrite (mu_ver h2 h5 x G); auto.
      + exists w. split; [auto|]. split; [reflexivity|]. split; [reflexivity|]. split; [auto|]. intros C. exfalso. apply Ew, (Evp w Hw), C.
    - assert (G : map mkey4 (h_mans h5) = map mkey4 (h_mans h2)) by (rewrite Ema5, Ema4; exact Ek3).
      intros o p Hp. rewrite (mu_plug h2 h5 o G). unfold man_plug, get_man in *. rewrite <- Ema1 in Hp.
      destruct Cm as [->|(Cm1 & _)]; [exact Hp|]. rewrite Cm1, find_snoc. destruct (find (man_is o) (h_mans h1)); [exact Hp|discriminate].
    - intros Hno. exists v5, mo. split; [exact Hv5|]. split; [rewrite Ep5, Ep4; exact Ep1|]. rewrite Em5, Em4. cbn [vf_mans set_vf_mans].
      assert (Ev0 : vf_mans v = []).
      { destruct Cv as [C|(_ & _ & C & _)]; [|exact C]. exfalso. subst h1. apply (Hno v Hv1 Ep1). }
      rewrite Ev0 in Hins. destruct Hins as [[[] _]|(_ & l1 & l2 & ver & I1 & I2 & _)].
      destruct l1; [|discriminate]. destruct l2; [|discriminate]. exact I2.
    - assert (G : map mkey4 (h_mans h5) = map mkey4 (h_mans h2)) by (rewrite Ema5, Ema4; exact Ek3).
      intros o z Hz. rewrite (mu_ver h2 h5 o G). unfold man_ver, get_man in *. rewrite <- Ema1 in Hz.
      destruct Cm as [->|(Cm1 & _)]; [exact Hz|]. rewrite Cm1, find_snoc. destruct (find (man_is o) (h_mans h1)); [exact Hz|discriminate].
    - intros w' Hw'. destruct (Nat.eq_dec (vf_obj w') vo) as [Ew|Ew].
      + left. assert (w' = v5) by (apply (nodup_key_inj vf_obj (h_vfns h5)); auto; [apply (wh_vobj h5 H5)|congruence]). subst w'.
        rewrite Ep5, Ep4. exact Ep1.
      + right. assert (K1 : map vf_ptr (h_vfns h5) = map vf_ptr (h_vfns h1)).
        { transitivity (map vf_ptr (h_vfns h4)); [rewrite Ev5; apply map_upd_first_same; reflexivity|].
          transitivity (map vf_ptr (h_vfns h3)).
          { destruct Ci4 as [->|(_ & _ & _ & Ci4)]; auto. rewrite Ci4. apply map_upd_first_same. reflexivity. }
          transitivity (map vf_ptr (h_vfns h2)); [rewrite Ev3; apply map_upd_first_same; reflexivity|rewrite Ev2; reflexivity]. }
        assert (K2 : In (vf_ptr w') (map vf_ptr (h_vfns h1))) by (rewrite <- K1; apply in_map; exact Hw').
        apply in_map_iff in K2. destruct K2 as (w & Ew1 & Hw). destruct Cv as [->|(Cv1 & _)]; [eauto|].
        rewrite Cv1 in Hw. apply in_app_iff in Hw. destruct Hw as [Hw|[<-|[]]]; [eauto|]. exfalso. apply Ew.
        assert (w' = v5); [|congruence]. apply (nodup_key_inj vf_ptr (h_vfns h5)); auto; [apply (wh_vptr h5 H5)|].
        rewrite Ep5, Ep4. cbn [vf_ptr set_vf_mans]. congruence. }
  split.
  { constructor; cbn [c_h c_tasks].
    - exact M5.
    - exact H5.
    - intros w Hw. destruct (Nat.eq_dec (vf_obj w) vo) as [Ew|Ew].
      + assert (w = v5) by (apply (nodup_key_inj vf_obj (h_vfns h5)); auto; [apply (wh_vobj h5 H5)|congruence]). subst w.
        split; [|split].
        * rewrite Em5, Em4. cbn [vf_mans set_vf_mans]. intros C. assert (G : In mo l') by (apply Hl'; auto). rewrite C in G. destruct G.
        * intros C. rewrite C in Ii5. destruct Ii5.
        * intros j Hj. destruct (Ij5 j Hj) as [->|[Hj1 Hj2]].
          { intros C. apply app_eq_nil in C. destruct C as [C1 C2]. destruct post; cbn in C1, C2; [|destruct (if_pre i); discriminate].
            destruct (if_post i); discriminate. }
          destruct (Ij4 j Hj1) as [->|Hj3]; [congruence|]. cbn [vf_ifaces set_vf_mans] in Hj3.
          apply (N1 v Hv1). exact Hj3.
      + pose proof (Iw5 w Hw Ew) as Hw4. pose proof (Iw4 w Hw4 Ew) as Hw3. destruct (N3 w Hw3) as [N4 N5]. destruct (N5 Ew). split; auto.
    - apply (WT_ext h1 h5); auto.
      + rewrite Ets5, Ets4, (hsm_thunks _ _ HS3), Eth2. reflexivity.
      + pose proof (hsm_nxt _ _ HS3). lia. }
  assert (WRh : WR h -> WR h5).
  { intros R. assert (R1 : WR h1) by (apply (ms_wr _ _ S1 R)).
    assert (R2 : WR h2). { destruct Cm as [->|(Cm1 & Cm2 & _)]; auto. apply (WR_new_man h1 h2 m); auto. }
    pose proof (ms_wr _ _ S3 R2) as R3. apply (WR_same h3 h5); [congruence| |auto]. exists []. split; [cbn; congruence|]. auto. }
  split; [exact WRh|]. split.
  { intros D. assert (D1 : WD h1) by (apply (ms_wd _ _ S1 D)).
    assert (D2 : WD h2). { apply (WD_same h1 h2); auto. exists []. auto. }
    pose proof (ms_wd _ _ S3 D2) as D3.
    assert (D4 : WD h4). { apply (WD_same h3 h4); auto. exists []. auto. }
    apply (push_WD h4 h5); auto. }
  split.
  { intros Hsh S. assert (Sw1 : WS h1) by (apply (ms_ws _ _ S1 S)).
    assert (Sw2 : WS h2).
    { destruct Cm as [->|(Cm1 & Cm2 & Cm3 & Cm4)]; auto. apply (WS_new_man h1 h2 m); auto.
      - intros y Hy. pose proof (wm_fresh_m m0 h1 M1 y Hy). lia.
      - intros y Hy C. rewrite Emf in C. apply (Cm4 y Hy). rewrite C. f_equal. apply Hsh; auto. rewrite <- Ema1. exact Hy. }
    pose proof (ms_ws _ _ S3 Sw2) as Sw3. apply (WS_same h3 h5); congruence. }
  split; [|exists e; split; [exact Q2|reflexivity]].
  exists v5, mo. split; [exact Hv5|]. split; [rewrite Ep5, Ep4; exact Ep1|]. split; [rewrite Em5, Em4; apply Hl'; auto|].
  assert (G3 : man_plug h5 mo = man_plug h2 mo /\ man_pf h5 mo = man_pf h2 mo).
  { assert (G : map mkey4 (h_mans h5) = map mkey4 (h_mans h2)) by (rewrite Ema5, Ema4; exact Ek3).
    split; [apply mu_plug; exact G|apply mu_pf; exact G]. }
  destruct G3 as [-> ->]. unfold man_plug, man_pf. rewrite Hgm2. cbn [option_map]. rewrite Emp, Emf. auto.
Qed.
