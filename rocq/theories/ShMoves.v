(** Changes of the hooks under running activations: the contexts keep up with
    ShAbs.v. *)
From Coq Require Import List Bool Arith ZArith Lia Sorted.
From Verif Require Import ProtoModel ShModel ShRun ShLists ShInv ShMan ShHooks ShAdd ShRem ShApi ShUnload ShHist ShGood ShSpec ShView ShAbs ShFrames ShRel ShCalls.
Import ListNotations.
Local Open Scope nat_scope.

Lemma hookedb_spec : forall h s, hookedb h s = true <-> exists v, In v (h_vfns h) /\ vf_ptr v = s.
Proof.
  intros h s. unfold hookedb. rewrite existsb_exists. split; intros (v & Hv & E); exists v; split; auto; apply Z.eqb_eq; exact E.
Qed.

(** What the contexts in use have to do when the hooks change from [h] to [h']. *)
Record moves (h h' : hs) (g : ctx -> ctx) (ok : ahook -> Prop) : Prop := {
  mv_keep : forall c, cx_vfn (g c) = cx_vfn c /\ cx_frame (g c) = cx_frame c /\ cx_this (g c) = cx_this c /\
    cx_orig (g c) = cx_orig c /\ cx_over (g c) = cx_over c /\ cx_ifp (g c) = cx_ifp c /\ cx_call_orig (g c) = cx_call_orig c /\
    cx_task (g c) = cx_task c;
  mv_dead : forall c, cx_state c = SDead -> cx_state (g c) = SDead;
  mv_ign : forall c, cx_state c = SIgnore -> cx_vfn c = None -> cx_state (g c) = SIgnore;
  mv_gone : forall v c a, live h v c a -> hookedb h' (a_slot a) = false -> cx_state (g c) = SDead;
  mv_live : forall v c a, live h v c a -> loop_ok v c a -> ok a -> hookedb h' (a_slot a) = true ->
    (forall vp n, a_run a = Some (vp, n) -> n < h_nxt h) ->
    exists v', live h' v' (g c) (a_refresh h' a) /\ loop_ok v' (g c) (a_refresh h' a);
  mv_nxt : h_nxt h <= h_nxt h' }.

Lemma live_fun : forall h v v' c a, WH h -> live h v c a -> live h v' c a -> v' = v.
Proof. intros h v v' c a W L L'. apply (live_unique h v v' c a W L); [apply (lv_in _ _ _ _ L')|apply (lv_ptr _ _ _ _ L')]. Qed.

Lemma rel_moves : forall h h' g ok vs susp fr cs A, WH h' -> moves h h' g ok -> rel h vs susp fr cs A ->
  (forall f a, In f A -> af_hook f = Some a -> a_alive a = true -> ok a) ->
  rel h' vs susp fr (map g cs) (map (refresh h') A).
Proof.
  intros h h' g ok vs susp fr cs A W' M R.
  induction R as [|fid aft fr cs A R IH Na|fid fr c cs A R IH Es Eo Ev|susp fid aft hi fr c cs a A R IH F]; intros Ok;
    cbn [map refresh af_id af_after af_ign af_hook option_map].
  - constructor.
  - constructor; auto. apply IH. intros f b Hf. apply Ok. right. exact Hf.
  - constructor.
    + apply IH. intros f b Hf. apply Ok. right. exact Hf.
    + apply (mv_ign _ _ _ _ M); auto.
    + destruct (mv_keep _ _ _ _ M c) as (_ & _ & _ & _ & K & _). congruence.
    + destruct (mv_keep _ _ _ _ M c) as (K & _). congruence.
  - constructor; [apply IH; intros f b Hf; apply Ok; right; exact Hf|].
    destruct (mv_keep _ _ _ _ M c) as (K1 & K2 & K3 & K4 & K5 & K6 & K7 & K8).
    destruct F as [F1 F2 F3 F4 F5 F6 F7 F8 Fn F9 F10]. rewrite map_length.
    assert (Lv : a_alive a = true -> hookedb h' (a_slot a) = true ->
      exists v', live h' v' (g c) (a_refresh h' a) /\ loop_ok v' (g c) (a_refresh h' a)).
    { intros Al Hk. pose proof (fc_live _ _ _ _ _ _ F7) as L. rewrite Al in L. destruct L as (v & L).
      apply (mv_live _ _ _ _ M v); auto. apply (Ok (AFrame fid aft false (Some a)) a); auto. left. reflexivity. }
    constructor; cbn [a_refresh a_phase a_run a_callorig a_alive a_v]; auto.
    + destruct F1 as [H1 H2 H3 H4 H5]. constructor; auto.
    + rewrite K6. exact F6.
    + destruct F7 as [C1 C2 C3 C4 C5 C6 C7]. constructor; cbn [a_refresh a_phase a_run a_callorig a_alive a_v]; auto.
      * congruence.
      * rewrite K4. exact C2.
      * rewrite K4. exact C3.
      * rewrite K5. exact C4.
      * intros H. rewrite K2, K5. apply C5. destruct H as [H|H]; [left|right; exact H]. apply andb_true_iff in H. apply H.
      * destruct (a_alive a) eqn:Al; cbn [andb].
        -- destruct (hookedb h' (a_slot a)) eqn:Hk.
           ++ destruct (Lv eq_refl eq_refl) as (v' & L & _). exists v'. exact L.
           ++ destruct C7 as (v & L). apply (mv_gone _ _ _ _ M v c a L Hk).
        -- apply (mv_dead _ _ _ _ M). exact C7.
    + intros Al v' L. apply andb_true_iff in Al. destruct Al as [Al Hk]. destruct (Lv Al Hk) as (v2 & L2 & Lp).
      rewrite (live_fun h' v2 v' (g c) (a_refresh h' a) W' L2 L). exact Lp.
    + intros vp n E. specialize (Fn vp n E). pose proof (mv_nxt _ _ _ _ M). lia.
    + intros Hs. destruct (F9 Hs) as [Al Rn]. rewrite Al. auto.
    + intros Hs. unfold ov_ok, or_ok. rewrite K4, K5. exact (F10 Hs).
Qed.

(** *** A common form: a vfnptr that stays *)
Lemma stays : forall h h' v v' c c' a, WH h -> WH h' -> WN h' -> live h v c a -> loop_ok v c a ->
  In v' (h_vfns h') -> vf_obj v' = vf_obj v -> vf_ptr v' = vf_ptr v ->
  cx_vfn c' = cx_vfn c -> cx_this c' = cx_this c -> cx_state c' = cx_state c ->
  (* the interface of the object *)
  (forall i, a_seen a = true -> find_iface v (a_this a) = Some i ->
     match find_iface v' (a_this a) with Some i' => if_obj i' = if_obj i /\ cx_iface c' = cx_iface c | None => cx_iface c' = None end) ->
  (a_seen a = false -> cx_iface c' = None) ->
  (* places in lists *)
  (forall p i i' post n, find_iface v p = Some i -> find_iface v' p = Some i' -> (exists vp, a_run a = Some (vp, n)) ->
     at_iter n i post (cx_iter c) -> at_iter n i' post (cx_iter c')) ->
  (forall vp n, a_run a = Some (vp, n) -> let p := if vp then 0%Z else a_this a in find_iface v p = None -> find_iface v' p = None) ->
  live h' v' c' (a_refresh h' a) /\ loop_ok v' c' (a_refresh h' a).
Proof.
  intros h h' v v' c c' a W W' N' L Lp Hv' Eo Ep Ev Et Es If1 If2 It New.
  pose proof L as [L1 L2 L3 L4 L5].
  assert (Ps : presentb h' (a_slot a) (a_this a) = match find_iface v' (a_this a) with Some _ => true | None => false end).
  { rewrite <- L2, <- Ep. apply presentb_iface; auto. }
  split.
  - constructor; cbn [a_refresh a_slot a_this a_seen]; try congruence; auto. rewrite Ps.
    destruct (a_seen a) eqn:Se; cbn [andb].
    + destruct L5 as (i & Fi & Ci). specialize (If1 i eq_refl Fi). destruct (find_iface v' (a_this a)) as [i'|]; [|exact If1].
      destruct If1 as [E1 E2]. exists i'. split; [reflexivity|]. congruence.
    + apply If2. reflexivity.
  - unfold loop_ok in *. cbn [a_refresh a_phase a_run]. 
    assert (Io : forall post vp n, a_run a = Some (vp, n) -> iter_ok v c a post vp n -> iter_ok v' c' (a_refresh h' a) post vp n).
    { intros post [|] n Er I; unfold iter_ok in *; cbn [a_refresh a_seen a_this].
      - intros i' Fi'. destruct (find_iface v 0) as [i|] eqn:Fi.
        + apply (It 0%Z i i' post n); eauto.
        + rewrite (New true n Er Fi) in Fi'. discriminate.
      - destruct I as [I1 I2]. split.
        + intros Se. rewrite Ps in Se. destruct (a_seen a) eqn:Sa; cbn [andb] in Se.
          * destruct (find_iface v' (a_this a)); [discriminate|reflexivity].
          * apply (New false n Er). apply I1. reflexivity.
        + intros i' Fi'. destruct (find_iface v (a_this a)) as [i|] eqn:Fi.
          * apply (It (a_this a) i i' post n); eauto.
          * rewrite (New false n Er Fi) in Fi'. discriminate. }
    destruct (a_phase a), (a_run a) as [[vp n]|] eqn:Er; try contradiction; try congruence;
      destruct Lp as [P1 P2]; (split; [congruence|apply Io; auto]).
Qed.

(** *** Pausing, and nothing at all *)
Lemma find_pause_iface : forall D p v a, find_iface (pause_vfn D p v) a = option_map (pause_iface D p) (find_iface v a).
Proof.
  intros D p v a. unfold find_iface, pause_vfn. cbn [vf_ifaces set_vf_ifaces]. induction (vf_ifaces v) as [|i l IH]; [reflexivity|].
  cbn [map find]. unfold iface_at at 1 3. cbn [pause_iface if_ptr set_hooks]. 
  replace (if_ptr (pause_iface D p i)) with (if_ptr i) by (destruct i; reflexivity).
  destruct (Z.eqb (if_ptr i) a); [reflexivity|exact IH].
Qed.
Lemma after_node_pause : forall D p n l, after_node n (map (pause_hook D p) l) = option_map (map (pause_hook D p)) (after_node n l).
Proof.
  intros D p n l. induction l as [|k l IH]; [reflexivity|]. cbn [map after_node]. rewrite pause_hook_nid.
  destruct (hk_nid k =? n); [reflexivity|exact IH].
Qed.
Lemma filter_later_pause : forall D p n l, filter (later n) (map (pause_hook D p) l) = map (pause_hook D p) (filter (later n) l).
Proof.
  intros D p n l. induction l as [|k l IH]; [reflexivity|]. cbn [map filter].
  replace (later n (pause_hook D p k)) with (later n k) by (unfold later; rewrite pause_hook_nid; reflexivity).
  destruct (later n k); cbn [map]; rewrite IH; reflexivity.
Qed.
Lemma at_iter_pause : forall D p n i post it, at_iter n i post it -> at_iter n (pause_iface D p i) post it.
Proof.
  intros D p n i post it H. unfold at_iter in *. rewrite pause_hooks_of, filter_later_pause.
  replace (if_obj (pause_iface D p i)) with (if_obj i) by (destruct i; reflexivity).
  destruct it as [|m|io q]; cbn [adv] in *.
  - injection H as H. rewrite <- H. reflexivity.
  - rewrite after_node_pause, H. reflexivity.
  - destruct ((io =? if_obj i) && Bool.eqb q post); [|discriminate]. injection H as H. rewrite <- H. reflexivity.
Qed.

Lemma moves_pause : forall h h' D p, WH h -> WH h' -> WN h' -> h_vfns h' = map (pause_vfn D p) (h_vfns h) -> h_nxt h <= h_nxt h' ->
  moves h h' (fun c => c) (fun _ => True).
Proof.
  intros h h' D p W W' N' E Nx. constructor; auto.
  - intros c. repeat split.
  - intros v c a L Hk. exfalso. assert (T : hookedb h' (a_slot a) = true); [|congruence].
    apply hookedb_spec. exists (pause_vfn D p v). rewrite E. split; [apply in_map; apply (lv_in _ _ _ _ L)|].
    apply (lv_ptr _ _ _ _ L).
  - intros v c a L Lp _ _ _. exists (pause_vfn D p v).
    apply (stays h h' v (pause_vfn D p v) c c a W W' N' L Lp); auto.
    + rewrite E. apply in_map. apply (lv_in _ _ _ _ L).
    + intros i Se Fi. rewrite find_pause_iface, Fi. cbn [option_map]. split; [destruct i|]; reflexivity.
    + intros Se. pose proof (lv_seen _ _ _ _ L) as X. rewrite Se in X. exact X.
    + intros q i i' post n Fi Fi' _ At. rewrite find_pause_iface, Fi in Fi'. cbn in Fi'. injection Fi' as <-. apply at_iter_pause. exact At.
    + intros vp n _ q Fi. rewrite find_pause_iface, Fi. reflexivity.
Qed.

Lemma find_vsk : forall h h' v, map vsk (h_vfns h') = map vsk (h_vfns h) -> In v (h_vfns h) -> exists v', In v' (h_vfns h') /\ vsk v' = vsk v.
Proof. intros h h' v E Hv. apply (in_map vsk) in Hv. rewrite <- E in Hv. apply in_map_iff in Hv. destruct Hv as (v' & E' & H'). eauto. Qed.

Lemma moves_same : forall h h', WH h -> WH h' -> WN h' ->
  (forall v, In v (h_vfns h) -> exists v', In v' (h_vfns h') /\ vsk v' = vsk v) -> h_nxt h <= h_nxt h' ->
  moves h h' (fun c => c) (fun _ => True).
Proof.
  intros h h' W W' N' E Nx. constructor; auto.
  - intros c. repeat split.
  - intros v c a L Hk. exfalso. assert (T : hookedb h' (a_slot a) = true); [|congruence].
    destruct (E v (lv_in _ _ _ _ L)) as (v' & Hv' & Ev'). injection Ev' as E1 E2 E3 E4 E5.
    apply hookedb_spec. exists v'. split; auto. rewrite E2. apply (lv_ptr _ _ _ _ L).
  - intros v c a L Lp _ _ _. destruct (E v (lv_in _ _ _ _ L)) as (v' & Hv' & Ev'). injection Ev' as E1 E2 E3 E4 E5. exists v'.
    assert (Fi : forall q, find_iface v' q = find_iface v q). { intros q. unfold find_iface. rewrite E5. reflexivity. }
    apply (stays h h' v v' c c a W W' N' L Lp); auto.
    + intros i Se F. rewrite Fi, F. auto.
    + intros Se. pose proof (lv_seen _ _ _ _ L) as X. rewrite Se in X. exact X.
    + intros q i i' post n F F' _ At. rewrite Fi, F in F'. injection F' as <-. exact At.
    + intros vp n _ q F. rewrite Fi. exact F.
Qed.

(** *** Adding a hook *)
Lemma after_node_app : forall m l r x, after_node m l = Some r -> after_node m (l ++ [x]) = Some (r ++ [x]).
Proof.
  intros m l. induction l as [|k l IH]; intros r x H; [discriminate|]. cbn [app after_node] in *. destruct (hk_nid k =? m); [congruence|auto].
Qed.
Lemma at_iter_app : forall n i i' post it hk, at_iter n i post it -> if_obj i' = if_obj i -> n < hk_nid hk ->
  (hooks_of post i' = hooks_of post i \/ hooks_of post i' = hooks_of post i ++ [hk]) -> at_iter n i' post it.
Proof.
  intros n i i' post it hk H Eo Ln [E|E]; unfold at_iter in *; rewrite E, Eo; [exact H|].
  assert (Ef : filter (later n) (hooks_of post i ++ [hk]) = filter (later n) (hooks_of post i) ++ [hk]).
  { rewrite filter_app. cbn [filter]. unfold later at 2. apply Nat.ltb_lt in Ln. rewrite Ln. reflexivity. }
  rewrite Ef. destruct it as [|m|io q]; cbn [adv] in *.
  - injection H as H. rewrite <- H. reflexivity.
  - apply after_node_app. exact H.
  - destruct ((io =? if_obj i) && Bool.eqb q post); [|discriminate]. injection H as H. rewrite <- H. reflexivity.
Qed.

(** The list a handler is running from has not been emptied. *)
Definition no_refill (h : hs) (slot adj : Z) (a : ahook) : Prop :=
  forall vp n, a_run a = Some (vp, n) -> a_slot a = slot -> (if vp then 0%Z else a_this a) = adj -> presentb h slot adj = true.

Lemma moves_add : forall h h' slot adj post hk, WH h -> WN h -> WH h' -> WN h' -> added h h' slot adj post hk -> h_nxt h <= h_nxt h' ->
  moves h h' (fun c => c) (no_refill h slot adj).
Proof.
  intros h h' slot adj post hk W N W' N' Ad Nx. constructor; auto.
  - intros c. repeat split.
  - intros v c a L Hk. exfalso. assert (T : hookedb h' (a_slot a) = true); [|congruence].
    destruct (ad_vfns _ _ _ _ _ _ Ad v (lv_in _ _ _ _ L)) as (v' & Hv' & (K1 & K2 & _) & _).
    apply hookedb_spec. exists v'. split; auto. rewrite K2. apply (lv_ptr _ _ _ _ L).
  - intros v c a L Lp Nr _ Ln. pose proof (lv_in _ _ _ _ L) as Hv.
    destruct (ad_vfns _ _ _ _ _ _ Ad v Hv) as (v' & Hv' & (K1 & K2 & _) & Gr). exists v'.
    apply (stays h h' v v' c c a W W' N' L Lp); auto.
    + intros i Se Fi. specialize (Gr (a_this a)). unfold find_iface in *. rewrite Fi in Gr.
      destruct (find (iface_at (a_this a)) (vf_ifaces v')) as [i'|]; [|contradiction]. destruct Gr as (G1 & _). auto.
    + intros Se. pose proof (lv_seen _ _ _ _ L) as X. rewrite Se in X. exact X.
    + intros q i i' ps n Fi Fi' (vp & Er) At. specialize (Gr q). unfold find_iface in *. rewrite Fi, Fi' in Gr. destruct Gr as (G1 & _ & G3).
      apply (at_iter_app n i i' ps (cx_iter c) hk); auto.
      * pose proof (ad_fresh _ _ _ _ _ _ Ad). specialize (Ln vp n Er). lia.
      * specialize (G3 ps). destruct (_ && _ && Bool.eqb ps post); [right|left]; [exact G3|rewrite G3; apply app_nil_r].
    + intros vp n Er q Fi. specialize (Gr q). unfold find_iface in *. rewrite Fi in Gr.
      destruct (find (iface_at q) (vf_ifaces v')) as [i'|]; [|reflexivity]. destruct Gr as (G & _). apply andb_true_iff in G. destruct G as [Ga Gb].
      apply Z.eqb_eq in Ga, Gb. pose proof (lv_ptr _ _ _ _ L) as Evp.
      assert (P : presentb h slot adj = true). { apply (Nr vp n Er); [congruence|exact Gb]. }
      rewrite <- Gb, <- Ga, (presentb_iface h v q W N Hv) in P. unfold find_iface in P. rewrite Fi in P. discriminate.
Qed.

(** *** Removing a hook *)
Lemma after_node_in : forall m l r, after_node m l = Some r -> exists k, In k l /\ hk_nid k = m.
Proof.
  intros m l. induction l as [|k l IH]; intros r H; [discriminate|]. cbn [after_node] in H. destruct (Nat.eqb_spec (hk_nid k) m) as [E|E].
  - exists k. split; [left; reflexivity|exact E].
  - destruct (IH r H) as (x & Hx & Ex). exists x. split; [right; exact Hx|exact Ex].
Qed.
Lemma after_node_skip : forall m k l, hk_nid k <> m -> after_node m (k :: l) = after_node m l.
Proof. intros m k l N. cbn [after_node]. apply Nat.eqb_neq in N. rewrite N. reflexivity. Qed.
Lemma after_node_hit : forall k l, after_node (hk_nid k) (k :: l) = Some l.
Proof. intros k l. cbn [after_node]. rewrite Nat.eqb_refl. reflexivity. Qed.
Lemma after_node_sub : forall m l r, after_node m l = Some r -> forall k, In k r -> In k l.
Proof.
  intros m l. induction l as [|x l IH]; intros r H k Hk; [discriminate|]. cbn [after_node] in H. destruct (hk_nid x =? m).
  - injection H as ->. right. exact Hk.
  - right. apply (IH r H k Hk).
Qed.
Lemma after_node_not : forall m l r, NoDup (map hk_nid l) -> after_node m l = Some r -> ~ In m (map hk_nid r).
Proof.
  intros m l. induction l as [|x l IH]; intros r N H; [discriminate|]. cbn [map] in N. inversion N as [|? ? N1 N2]; subst. cbn [after_node] in H.
  destruct (Nat.eqb_spec (hk_nid x) m) as [<-|E]; [injection H as <-; exact N1|]. apply (IH r N2 H).
Qed.
Lemma hook_id_false : forall id k, hk_id k <> id -> hook_id_is id k = false.
Proof. intros id k N. destruct (hook_id_is id k) eqn:E; [|reflexivity]. apply (sel_hook_id id) in E. congruence. Qed.

Lemma del_absent : forall id l, ~ In id (map hk_id l) -> del_first (hook_id_is id) l = l.
Proof.
  intros id l H. apply del_first_none. intros k Hk. apply hook_id_false. intros E. apply H. rewrite <- E. apply in_map. exact Hk.
Qed.
Lemma filter_del : forall p id l, NoDup (map hk_id l) -> filter p (del_first (hook_id_is id) l) = del_first (hook_id_is id) (filter p l).
Proof.
  intros p id l. induction l as [|k l IH]; intros N; [reflexivity|]. cbn [map] in N. inversion N as [|? ? N1 N2]; subst. cbn [del_first filter].
  destruct (hook_id_is id k) eqn:E.
  - destruct (p k); cbn [del_first]; [rewrite E; reflexivity|]. rewrite del_absent; [reflexivity|]. apply (sel_hook_id id) in E.
    intros H. apply N1. rewrite E. apply in_map_iff in H. destruct H as (x & Ex & Hx). apply filter_In in Hx. rewrite <- Ex. apply in_map. apply Hx.
  - cbn [filter]. destruct (p k); cbn [del_first]; [rewrite E|]; rewrite IH by exact N2; reflexivity.
Qed.
Lemma after_node_del : forall id l m r, NoDup (map hk_id l) -> (forall k, In k l -> hk_id k = id -> hk_nid k <> m) ->
  after_node m l = Some r -> after_node m (del_first (hook_id_is id) l) = Some (del_first (hook_id_is id) r).
Proof.
  intros id l m. induction l as [|k l IH]; intros r N Hn H; [discriminate|]. cbn [map] in N. inversion N as [|? ? N1 N2]; subst.
  cbn [after_node] in H. cbn [del_first]. destruct (hook_id_is id k) eqn:E.
  - apply (sel_hook_id id) in E. pose proof (Hn k (or_introl eq_refl) E) as Nm. apply Nat.eqb_neq in Nm. rewrite Nm in H. rewrite H.
    rewrite del_absent; [reflexivity|]. intros C. apply N1. rewrite E. apply in_map_iff in C. destruct C as (x & Ex & Hx).
    rewrite <- Ex. apply in_map. apply (after_node_sub m l r H x Hx).
  - cbn [after_node]. destruct (hk_nid k =? m).
    + injection H as ->. reflexivity.
    + apply IH; auto. intros x Hx. apply Hn. right. exact Hx.
Qed.

Lemma iter_before_node : forall io post id l k0 hk, NoDup (map hk_nid (k0 :: l)) -> NoDup (map hk_id l) -> In hk l -> hk_id hk = id ->
  exists m, iter_before io post (INode (hk_nid k0)) id l = INode m /\ In m (map hk_nid (k0 :: l)) /\
    after_node m (k0 :: del_first (hook_id_is id) l) = after_node (hk_nid hk) l.
Proof.
  intros io post id l. induction l as [|k l IH]; intros k0 hk N Ni Hk Eid; [destruct Hk|].
  cbn [iter_before del_first]. destruct (hook_id_is id k) eqn:E.
  - exists (hk_nid k0). split; [reflexivity|]. split; [left; reflexivity|]. apply (sel_hook_id id) in E.
    assert (k = hk). { apply (nodup_key_inj hk_id (k :: l)); auto. left. reflexivity. congruence. } subst k.
    rewrite !after_node_hit. reflexivity.
  - destruct Hk as [->|Hk]. { exfalso. unfold hook_id_is in E. rewrite Eid, Z.eqb_refl in E. discriminate. }
    cbn [map] in N. inversion N as [|? ? N1 N2]; subst. cbn [map] in Ni. inversion Ni as [|? ? M1 M2]; subst.
    destruct (IH k hk N2 M2 Hk eq_refl) as (m & E1 & E2 & E3). exists m. split; [exact E1|]. split; [right; exact E2|].
    rewrite after_node_skip.
    + rewrite E3, after_node_skip; [reflexivity|]. inversion N2 as [|? ? P1 P2]; subst. intros C. apply P1. rewrite C. apply in_map. exact Hk.
    + intros C. apply N1. rewrite C. exact E2.
Qed.
Lemma adv_before : forall io post id l hk, NoDup (map hk_nid l) -> NoDup (map hk_id l) -> In hk l -> hk_id hk = id ->
  adv (iter_before io post (IEnd io post) id l) io post (del_first (hook_id_is id) l) = after_node (hk_nid hk) l.
Proof.
  intros io post id l hk N Ni Hk Eid. destruct l as [|k l]; [destruct Hk|]. cbn [iter_before del_first]. destruct (hook_id_is id k) eqn:E.
  - apply (sel_hook_id id) in E. assert (k = hk). { apply (nodup_key_inj hk_id (k :: l)); auto. left. reflexivity. congruence. } subst k.
    rewrite after_node_hit. cbn [adv]. rewrite Nat.eqb_refl, Bool.eqb_reflx. reflexivity.
  - destruct Hk as [->|Hk]. { exfalso. unfold hook_id_is in E. rewrite Eid, Z.eqb_refl in E. discriminate. }
    cbn [map] in Ni. inversion Ni as [|? ? M1 M2]; subst.
    destruct (iter_before_node io post (hk_id hk) l k hk N M2 Hk eq_refl) as (m & E1 & E2 & E3). rewrite E1. cbn [adv]. rewrite E3.
    rewrite after_node_skip; [reflexivity|]. cbn [map] in N. inversion N as [|? ? P1 P2]; subst. intros C. apply P1. rewrite C. apply in_map. exact Hk.
Qed.

Definition it_removed (n : nat) (b : iter) (it : iter) : iter :=
  match it with INode m => if m =? n then b else it | _ => it end.
Lemma cx_iter_removed : forall n b c, cx_iter (ctx_hook_removed n b c) = it_removed n b (cx_iter c).
Proof. intros n b c. unfold ctx_hook_removed, it_removed. destruct (cx_iter c) as [|m|io q] eqn:E; auto. destruct (m =? n); [reflexivity|exact E]. Qed.

(** The iterator after the removal, in the list that lost the hook ... *)
Lemma at_iter_del : forall i post id hk n it, let l := hooks_of post i in
  NoDup (map hk_nid l) -> NoDup (map hk_id l) -> In hk l -> hk_id hk = id -> at_iter n i post it ->
  at_iter n (set_hooks post (del_first (hook_id_is id) l) i) post
    (it_removed (hk_nid hk) (iter_before (if_obj i) post (IEnd (if_obj i) post) id l) it).
Proof.
  intros i post id hk n it l N Ni Hk Eid At. unfold at_iter in *. fold l in At. rewrite set_hooks_same.
  replace (if_obj (set_hooks post (del_first (hook_id_is id) l) i)) with (if_obj i) by (destruct post; reflexivity).
  rewrite filter_del by exact Ni.
  destruct it as [|m|io q]; cbn [it_removed].
  - cbn [adv] in *. injection At as At. rewrite <- At. reflexivity.
  - cbn [adv] in At. destruct (Nat.eqb_spec m (hk_nid hk)) as [->|Nm].
    + rewrite (adv_before (if_obj i) post id l hk N Ni Hk Eid), At. f_equal. symmetry. apply del_absent.
      intros C. apply in_map_iff in C. destruct C as (x & Ex & Hx).
      assert (x = hk).
      { apply (nodup_key_inj hk_id l); auto; [|congruence]. apply filter_In in Hx. apply Hx. } subst x.
      apply (after_node_not _ _ _ N At). apply in_map. exact Hx.
    + cbn [adv]. apply after_node_del; auto. intros k Hk' Ek. assert (k = hk); [|congruence].
      apply (nodup_key_inj hk_id l); auto. congruence.
  - cbn [adv] in *. destruct ((io =? if_obj i) && Bool.eqb q post); [|discriminate]. injection At as At. rewrite <- At. reflexivity.
Qed.

(** ... and in every other list. *)
Lemma at_iter_other : forall h v i p k w j q n it b, WH h -> In v (h_vfns h) -> In i (vf_ifaces v) -> In k (hooks_of p i) ->
  In w (h_vfns h) -> In j (vf_ifaces w) -> (vf_ptr w = vf_ptr v -> if_ptr j = if_ptr i -> q <> p) ->
  at_iter n j q it -> at_iter n j q (it_removed (hk_nid k) b it).
Proof.
  intros h v i p k w j q n it b W Hv Hi Hk Hw Hj Ne At. destruct it as [|m|io o]; cbn [it_removed]; auto.
  destruct (Nat.eqb_spec m (hk_nid k)) as [->|]; [|exact At]. exfalso.
  unfold at_iter in At. cbn [adv] in At. destruct (after_node_in _ _ _ At) as (x & Hx & Ex).
  destruct (hook_at_nid_eq h (vf_ptr w) (if_ptr j) q x (vf_ptr v) (if_ptr i) p k W) as (E1 & E2 & E3 & _); auto.
  - exists w, j. auto.
  - exists v, i. auto.
  - apply (Ne E1 E2 E3).
Qed.

(** What happens to a context. *)
Definition rem_ctx (keep kill : bool) (id : Z) (e : entry) (v : vfn) (i : iface) (hk : hook) (c : ctx) : ctx :=
  let c1 := ctx_hook_removed (hk_nid hk) (iter_before (if_obj i) (en_post e) (IEnd (if_obj i) (en_post e)) id (hooks_of (en_post e) i)) c in
  let c2 := if keep then c1 else ctx_iface_removed (if_obj i) c1 in
  if kill then ctx_vfn_removed (vf_obj v) c2 else c2.

Lemma rem_ctx_keep : forall keep kill id e v i hk c, let g := rem_ctx keep kill id e v i hk in
  cx_vfn (g c) = cx_vfn c /\ cx_frame (g c) = cx_frame c /\ cx_this (g c) = cx_this c /\
  cx_orig (g c) = cx_orig c /\ cx_over (g c) = cx_over c /\ cx_ifp (g c) = cx_ifp c /\ cx_call_orig (g c) = cx_call_orig c /\
  cx_task (g c) = cx_task c.
Proof.
  intros keep kill id e v i hk c g. unfold g, rem_ctx. set (b := iter_before _ _ _ _ _).
  assert (K1 : forall x, let y := ctx_hook_removed (hk_nid hk) b x in cx_vfn y = cx_vfn x /\ cx_frame y = cx_frame x /\ cx_this y = cx_this x /\
    cx_orig y = cx_orig x /\ cx_over y = cx_over x /\ cx_ifp y = cx_ifp x /\ cx_call_orig y = cx_call_orig x /\ cx_task y = cx_task x).
  { intros x. unfold ctx_hook_removed. destruct (cx_iter x); [|destruct (_ =? _)|]; repeat split. }
  assert (K2 : forall x, let y := ctx_iface_removed (if_obj i) x in cx_vfn y = cx_vfn x /\ cx_frame y = cx_frame x /\ cx_this y = cx_this x /\
    cx_orig y = cx_orig x /\ cx_over y = cx_over x /\ cx_ifp y = cx_ifp x /\ cx_call_orig y = cx_call_orig x /\ cx_task y = cx_task x).
  { intros x. unfold ctx_iface_removed. destruct (opt_is _ _); repeat split. }
  assert (K3 : forall x, let y := ctx_vfn_removed (vf_obj v) x in cx_vfn y = cx_vfn x /\ cx_frame y = cx_frame x /\ cx_this y = cx_this x /\
    cx_orig y = cx_orig x /\ cx_over y = cx_over x /\ cx_ifp y = cx_ifp x /\ cx_call_orig y = cx_call_orig x /\ cx_task y = cx_task x).
  { intros x. unfold ctx_vfn_removed. destruct (opt_is _ _); repeat split. }
  cbv zeta in K1, K2, K3.
  destruct (K1 c) as (A1 & A2 & A3 & A4 & A5 & A6 & A7 & A8).
  destruct (K2 (ctx_hook_removed (hk_nid hk) b c)) as (B1 & B2 & B3 & B4 & B5 & B6 & B7 & B8).
  destruct (K3 (ctx_hook_removed (hk_nid hk) b c)) as (C1 & C2 & C3 & C4 & C5 & C6 & C7 & C8).
  destruct (K3 (ctx_iface_removed (if_obj i) (ctx_hook_removed (hk_nid hk) b c))) as (D1 & D2 & D3 & D4 & D5 & D6 & D7 & D8).
  destruct keep, kill; repeat split; congruence.
Qed.
Lemma rem_ctx_state : forall keep kill id e v i hk c,
  cx_state (rem_ctx keep kill id e v i hk c) = if kill && opt_is (vf_obj v) (cx_vfn c) then SDead else cx_state c.
Proof.
  intros keep kill id e v i hk c. unfold rem_ctx. set (b := iter_before _ _ _ _ _). unfold ctx_vfn_removed, ctx_iface_removed, ctx_hook_removed.
  destruct kill, keep; cbn [andb]; destruct (cx_iter c) as [|m|io o]; try destruct (m =? hk_nid hk); cbn [cx_iface cx_set_iter];
    try destruct (opt_is (if_obj i) (cx_iface c)); cbn [cx_vfn cx_set_iter cx_set_iface]; destruct (opt_is (vf_obj v) (cx_vfn c)); reflexivity.
Qed.
Lemma rem_ctx_iter : forall keep kill id e v i hk c, cx_iter (rem_ctx keep kill id e v i hk c) =
  it_removed (hk_nid hk) (iter_before (if_obj i) (en_post e) (IEnd (if_obj i) (en_post e)) id (hooks_of (en_post e) i)) (cx_iter c).
Proof.
  intros keep kill id e v i hk c. unfold rem_ctx. set (b := iter_before _ _ _ _ _). rewrite <- cx_iter_removed.
  unfold ctx_vfn_removed, ctx_iface_removed. destruct keep, kill; repeat match goal with |- context [opt_is ?a ?b] => destruct (opt_is a b) end; reflexivity.
Qed.
Lemma rem_ctx_iface : forall keep kill id e v i hk c, cx_iface (rem_ctx keep kill id e v i hk c) =
  if negb keep && opt_is (if_obj i) (cx_iface c) then None else cx_iface c.
Proof.
  intros keep kill id e v i hk c. unfold rem_ctx. set (b := iter_before _ _ _ _ _). unfold ctx_vfn_removed, ctx_iface_removed, ctx_hook_removed.
  destruct kill, keep; cbn [andb negb]; destruct (cx_iter c) as [|m|io o]; try destruct (m =? hk_nid hk); cbn [cx_iface cx_set_iter];
    try (destruct (opt_is (if_obj i) (cx_iface c)) eqn:E); cbn [cx_vfn cx_set_iter cx_set_iface]; try destruct (opt_is (vf_obj v) (cx_vfn c)); cbn [cx_iface cx_set_state cx_set_iter cx_set_iface]; try rewrite E; reflexivity.
Qed.

Lemma opt_is_spec : forall o x, opt_is o x = true <-> x = Some o.
Proof. intros o [y|]; cbn; [rewrite Nat.eqb_eq|]; split; congruence. Qed.

Lemma moves_rem_gen : forall h h' id e v i hk (keep kill : bool), WH h -> WH h' -> WN h' -> located h id e v i hk ->
  let i' := set_hooks (en_post e) (del_first (hook_id_is id) (hooks_of (en_post e) i)) i in
  (forall w, In w (h_vfns h) -> w <> v -> In w (h_vfns h')) ->
  (if kill then hookedb h' (vf_ptr v) = false
   else exists v', In v' (h_vfns h') /\ vf_obj v' = vf_obj v /\ vf_ptr v' = vf_ptr v /\
          forall q, find_iface v' q = if (q =? if_ptr i)%Z then (if keep then Some i' else None) else find_iface v q) ->
  (kill = true -> keep = false) -> h_nxt h <= h_nxt h' ->
  moves h h' (rem_ctx keep kill id e v i hk) (fun _ => True).
Proof.
  intros h h' id e v i hk keep kill W W' N' Lc i' Oth Own Kk Nx.
  pose proof Lc as (Q & _ & _ & _ & Hv & Ep & Hi & Ea & Hk & Eid & En & Hd).
  assert (Dec : forall w, In w (h_vfns h) -> w = v \/ w <> v /\ vf_obj w <> vf_obj v /\ vf_ptr w <> vf_ptr v).
  { intros w Hw. destruct (Nat.eq_dec (vf_obj w) (vf_obj v)) as [E|E].
    - left. apply (nodup_key_inj vf_obj _ w v (wh_vobj h W) Hw Hv E).
    - right. split; [congruence|]. split; auto. intros C. apply E. rewrite (nodup_key_inj vf_ptr _ w v (wh_vptr h W) Hw Hv C). reflexivity. }
  constructor.
  - apply rem_ctx_keep.
  - intros c Es. rewrite rem_ctx_state, Es. destruct (kill && _); reflexivity.
  - intros c Es Ev. rewrite rem_ctx_state, Ev. cbn [opt_is]. rewrite andb_false_r. exact Es.
  - intros w c a L Hf. pose proof (lv_in _ _ _ _ L) as Hw.
    assert (Nh : forall u, In u (h_vfns h') -> vf_ptr u <> a_slot a).
    { intros u Hu E. assert (T : hookedb h' (a_slot a) = true); [|congruence]. apply hookedb_spec. exists u. auto. }
    destruct (Dec w Hw) as [->|(Nw & No & Np)].
    + destruct kill.
      * rewrite rem_ctx_state. pose proof (lv_obj _ _ _ _ L) as Ev. rewrite Ev. cbn [opt_is]. rewrite Nat.eqb_refl. reflexivity.
      * destruct Own as (v' & Hv' & Eo & Epp & _). exfalso. apply (Nh v' Hv'). rewrite Epp. apply (lv_ptr _ _ _ _ L).
    + exfalso. apply (Nh w (Oth w Hw Nw)). apply (lv_ptr _ _ _ _ L).
  - intros w c a L Lp _ Hk' _. pose proof (lv_in _ _ _ _ L) as Hw. pose proof (lv_obj _ _ _ _ L) as Ev. pose proof (lv_seen _ _ _ _ L) as Se.
    destruct (rem_ctx_keep keep kill id e v i hk c) as (K1 & _ & K3 & _).
    assert (Io : forall w j, In w (h_vfns h) -> In j (vf_ifaces w) -> (w <> v \/ if_ptr j <> if_ptr i) -> if_obj j <> if_obj i).
    { intros w0 j Hw0 Hj Ne C. destruct (wh_iobj h W w0 j v i Hw0 Hj Hv Hi C) as [E1 E2].
      assert (w0 = v) by apply (nodup_key_inj vf_ptr _ w0 v (wh_vptr h W) Hw0 Hv E1). destruct Ne; congruence. }
    destruct (Dec w Hw) as [->|(Nw & No & Np)].
    + destruct kill. { pose proof (lv_ptr _ _ _ _ L). congruence. }
      destruct Own as (v' & Hv' & Eo & Epp & Fi). exists v'.
      apply (stays h h' v v' c (rem_ctx keep false id e v i hk c) a W W' N' L Lp); auto.
      * rewrite rem_ctx_state. reflexivity.
      * intros j Sn Fj. rewrite Fi, rem_ctx_iface. rewrite Sn in Se. destruct Se as (j' & Fj' & Ci). assert (j' = j) by congruence. subst j'.
        apply (find_iface_spec h v _ _ W Hv) in Fj. destruct Fj as [Hj Pj]. destruct (Z.eqb_spec (a_this a) (if_ptr i)) as [Et|Et].
        -- assert (j = i) by (apply (iface_unique h v j i W Hv Hj Hi); congruence). subst j. destruct keep; cbn [negb andb].
           ++ split; [unfold i'; destruct (en_post e); reflexivity|reflexivity].
           ++ rewrite Ci. cbn [opt_is]. rewrite Nat.eqb_refl. reflexivity.
        -- rewrite Fj'. split; [reflexivity|]. rewrite Ci. cbn [opt_is].
           assert (if_obj j <> if_obj i). { apply (Io v); auto. right. congruence. }
           destruct (Nat.eqb_spec (if_obj j) (if_obj i)); [contradiction|]. rewrite andb_false_r. reflexivity.
      * intros Sn. rewrite Sn in Se. rewrite rem_ctx_iface, Se. destruct (negb keep && _); reflexivity.
      * intros q j j' post n Fj Fj' _ At. rewrite rem_ctx_iter. rewrite Fi in Fj'. pose proof Fj as Fj0.
        apply (find_iface_spec h v _ _ W Hv) in Fj. destruct Fj as [Hj Pj]. destruct (Z.eqb_spec q (if_ptr i)) as [Et|Et].
        -- assert (j = i) by (apply (iface_unique h v j i W Hv Hj Hi); congruence). subst j. destruct keep; [|discriminate]. injection Fj' as <-.
           destruct (Bool.bool_dec post (en_post e)) as [->|Nb].
           ++ apply at_iter_del; auto.
              ** apply sorted_lt_nodup. apply (wh_sorted h W v i _ Hv Hi).
              ** apply (hid_nodup h v i _ W Hv Hi).
           ++ assert (X : at_iter n i post (it_removed (hk_nid hk) (iter_before (if_obj i) (en_post e) (IEnd (if_obj i) (en_post e)) id (hooks_of (en_post e) i)) (cx_iter c))).
              { apply (at_iter_other h v i (en_post e) hk v i); auto. }
              unfold at_iter in *. unfold i'. rewrite set_hooks_other by congruence.
              replace (if_obj (set_hooks (en_post e) _ i)) with (if_obj i) by (destruct (en_post e); reflexivity). exact X.
        -- assert (j' = j) by congruence. subst j'. apply (at_iter_other h v i (en_post e) hk v j); auto. intros _ C. congruence.
      * intros vp n _ q Fj. rewrite Fi. fold q. rewrite Fj. destruct (Z.eqb_spec q (if_ptr i)) as [Et|Et]; [|reflexivity].
        exfalso. assert (X : find_iface v q = Some i) by (apply (find_iface_spec h v q i W Hv); auto). rewrite Fj in X. discriminate.
    + exists w. apply (stays h h' w w c (rem_ctx keep kill id e v i hk c) a W W' N' L Lp); auto.
      * rewrite rem_ctx_state, Ev. cbn [opt_is]. destruct (Nat.eqb_spec (vf_obj w) (vf_obj v)); [contradiction|]. rewrite andb_false_r. reflexivity.
      * intros j Sn Fj. rewrite Fj. split; [reflexivity|]. rewrite Sn in Se. destruct Se as (j' & Fj' & Ci). assert (j' = j) by congruence. subst j'.
        rewrite rem_ctx_iface, Ci. cbn [opt_is]. apply (find_iface_spec h w _ _ W Hw) in Fj. destruct Fj as [Hj Pj].
        assert (if_obj j <> if_obj i) by (apply (Io w); auto). destruct (Nat.eqb_spec (if_obj j) (if_obj i)); [contradiction|].
        rewrite andb_false_r. reflexivity.
      * intros Sn. rewrite Sn in Se. rewrite rem_ctx_iface, Se. destruct (negb keep && _); reflexivity.
      * intros q j j' post n Fj Fj' _ At. assert (j' = j) by congruence. subst j'. rewrite rem_ctx_iter.
        apply (find_iface_spec h w _ _ W Hw) in Fj. destruct Fj as [Hj _]. apply (at_iter_other h v i (en_post e) hk w j); auto.
  - exact Nx.
Qed.

Lemma stk_map_ok : forall f c c', (forall x, cx_task (f x) = cx_task x) -> cs_ok c -> c' = cs_map f c -> cs_ok c' /\ stk c' = map f (stk c).
Proof. intros f c c' T O ->. apply stk_map; auto. Qed.

Lemma ctx_hr_task : forall n b x, cx_task (ctx_hook_removed n b x) = cx_task x.
Proof. intros n b x. unfold ctx_hook_removed. destruct (cx_iter x); [|destruct (_ =? _)|]; reflexivity. Qed.
Lemma ctx_ir_task : forall n x, cx_task (ctx_iface_removed n x) = cx_task x.
Proof. intros n x. unfold ctx_iface_removed. destruct (opt_is _ _); reflexivity. Qed.
Lemma ctx_vr_task : forall n x, cx_task (ctx_vfn_removed n x) = cx_task x.
Proof. intros n x. unfold ctx_vfn_removed. destruct (opt_is _ _); reflexivity. Qed.

(** Removing one hook: some change of the contexts that keeps up. *)
Theorem moves_remove : forall m0 k k' id e v i hk, WF m0 k -> WF m0 k' -> located (c_h k) id e v i hk -> rem_shape k k' id e v i hk ->
  vf_thunk v = None -> h_nxt (c_h k) <= h_nxt (c_h k') -> cs_ok (c_cs k) ->
  exists g, moves (c_h k) (c_h k') g (fun _ => True) /\ cs_ok (c_cs k') /\ stk (c_cs k') = map g (stk (c_cs k)) /\ c_tasks k' = c_tasks k.
Proof.
  intros m0 k k' id e v i hk F F' Lc Sh Th Nx O. destruct F as [M W N T]. destruct F' as [M' W' N' T'].
  pose proof Lc as (Q & _ & _ & _ & Hv & Ep & Hi & Ea & Hk & Eid & En & Hd).
  assert (O1 : cs_ok (rem_cs1 k id e i hk) /\ stk (rem_cs1 k id e i hk) = map (rem_ctx true false id e v i hk) (stk (c_cs k))).
  { apply stk_map; auto. intros x. apply ctx_hr_task. }
  set (i' := set_hooks (en_post e) (del_first (hook_id_is id) (hooks_of (en_post e) i)) i) in *.
  assert (Pi' : if_ptr i' = if_ptr i) by (unfold i'; destruct (en_post e); reflexivity).
  destruct Sh as [(Ne & Ec & Et & Ev)|[(Em & Ne & Ec & Et & Ev)|(Em & Ei & Ev & h2 & En2 & St)]].
  - exists (rem_ctx true false id e v i hk). rewrite Ec. split; [|tauto].
    apply moves_rem_gen; auto; try discriminate.
    + intros w Hw Nw. rewrite Ev. apply (in_upd_first _ vf_obj (vf_obj v)); auto using sel_vfn_is; [apply (wh_vobj _ W)|]. left. split; auto.
      intros C. apply Nw. apply (nodup_key_inj vf_obj _ w v (wh_vobj _ W) Hw Hv C).
    + set (v' := set_vf_ifaces (upd_first (iface_at (en_adj e)) (fun _ => i') (vf_ifaces v)) v). exists v'.
      assert (Hv' : In v' (h_vfns (c_h k'))).
      { rewrite Ev. apply (in_upd_first _ vf_obj (vf_obj v)); auto using sel_vfn_is; [apply (wh_vobj _ W)|]. right. exists v. auto. }
      split; [exact Hv'|]. split; [reflexivity|]. split; [reflexivity|]. intros q.
      assert (In_ : forall j, In j (vf_ifaces v') <-> (In j (vf_ifaces v) /\ if_ptr j <> if_ptr i) \/ j = i').
      { intros j. unfold v'. cbn [vf_ifaces set_vf_ifaces]. rewrite (in_upd_first _ if_ptr (en_adj e)); auto using sel_iface_at; [|apply (wh_iptr _ W v Hv)].
        rewrite <- Ea. split; [intros [X|(x & X & Y & Z)]|intros [X|X]]; auto. right. exists i. auto. }
      destruct (Z.eqb_spec q (if_ptr i)) as [Eq|Eq].
      * apply (find_iface_spec _ v' q i' W' Hv'). split; [apply In_; auto|congruence].
      * destruct (find_iface v q) as [j|] eqn:Fj.
        -- apply (find_iface_spec _ v q j W Hv) in Fj. apply (find_iface_spec _ v' q j W' Hv'). split; [|apply Fj]. apply In_. left. split; [apply Fj|].
           destruct Fj. congruence.
        -- destruct (find_iface v' q) as [j|] eqn:Fj'; [|reflexivity]. exfalso.
           apply (find_iface_spec _ v' q j W' Hv') in Fj'. destruct Fj' as [X Y]. apply In_ in X. destruct X as [[X _]| ->]; [|congruence].
           assert (Z : find_iface v q = Some j) by (apply (find_iface_spec _ v q j W Hv); auto). congruence.
  - exists (rem_ctx false false id e v i hk).
    destruct O1 as [O1 S1]. destruct (stk_map_ok _ _ _ (ctx_ir_task (if_obj i)) O1 Ec) as [O2 S2].
    split; [|split; [exact O2|split; [rewrite S2, S1, map_map; reflexivity|exact Et]]].
    apply moves_rem_gen; auto; try discriminate.
    + intros w Hw Nw. rewrite Ev. apply (in_upd_first _ vf_obj (vf_obj v)); auto using sel_vfn_is; [apply (wh_vobj _ W)|]. left. split; auto.
      intros C. apply Nw. apply (nodup_key_inj vf_obj _ w v (wh_vobj _ W) Hw Hv C).
    + set (v' := set_vf_ifaces (del_first (iface_at (en_adj e)) (vf_ifaces v)) v). exists v'.
      assert (Hv' : In v' (h_vfns (c_h k'))).
      { rewrite Ev. apply (in_upd_first _ vf_obj (vf_obj v)); auto using sel_vfn_is; [apply (wh_vobj _ W)|]. right. exists v. auto. }
      split; [exact Hv'|]. split; [reflexivity|]. split; [reflexivity|]. intros q.
      assert (In_ : forall j, In j (vf_ifaces v') <-> (In j (vf_ifaces v) /\ if_ptr j <> if_ptr i)).
      { intros j. unfold v'. cbn [vf_ifaces set_vf_ifaces]. rewrite (in_del_first _ if_ptr (en_adj e)); auto using sel_iface_at; [|apply (wh_iptr _ W v Hv)].
        rewrite <- Ea. tauto. }
      destruct (Z.eqb_spec q (if_ptr i)) as [Eq|Eq].
      * destruct (find_iface v' q) as [j|] eqn:Fj'; [|reflexivity]. exfalso.
        apply (find_iface_spec _ v' q j W' Hv') in Fj'. destruct Fj' as [X Y]. apply In_ in X. destruct X. congruence.
      * destruct (find_iface v q) as [j|] eqn:Fj.
        -- apply (find_iface_spec _ v q j W Hv) in Fj. apply (find_iface_spec _ v' q j W' Hv'). split; [|apply Fj]. apply In_. split; [apply Fj|].
           destruct Fj. congruence.
        -- destruct (find_iface v' q) as [j|] eqn:Fj'; [|reflexivity]. exfalso.
           apply (find_iface_spec _ v' q j W' Hv') in Fj'. destruct Fj' as [X Y]. apply In_ in X. destruct X as [X _].
           assert (Z : find_iface v q = Some j) by (apply (find_iface_spec _ v q j W Hv); auto). congruence.
  - exists (rem_ctx false true id e v i hk). unfold stage_cs in St. rewrite Th in St. cbn [c_cs c_tasks] in St. destruct St as [Ec Et].
    destruct O1 as [O1 S1]. destruct (stk_map_ok _ _ _ (ctx_ir_task (if_obj i)) O1 eq_refl) as [O2 S2].
    destruct (stk_map_ok _ _ _ (ctx_vr_task (vf_obj v)) O2 Ec) as [O3 S3].
    split; [|split; [exact O3|split; [rewrite S3, S2, S1, !map_map; reflexivity|exact Et]]].
    assert (In_ : forall w, In w (h_vfns (c_h k')) <-> In w (h_vfns (c_h k)) /\ vf_obj w <> vf_obj v).
    { intros w. rewrite Ev. apply (in_del_first _ vf_obj (vf_obj v)); auto using sel_vfn_is. apply (wh_vobj _ W). }
    apply moves_rem_gen; auto.
    + intros w Hw Nw. apply In_. split; auto. intros C. apply Nw. apply (nodup_key_inj vf_obj _ w v (wh_vobj _ W) Hw Hv C).
    + destruct (hookedb (c_h k') (vf_ptr v)) eqn:Hb; [|reflexivity]. exfalso. apply hookedb_spec in Hb. destruct Hb as (w & Hw & Ew).
      apply In_ in Hw. destruct Hw as [Hw Nw]. apply Nw. rewrite (nodup_key_inj vf_ptr _ w v (wh_vptr _ W) Hw Hv Ew). reflexivity.
Qed.
