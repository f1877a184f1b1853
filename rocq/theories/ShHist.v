(** Histories: what running hook functions leaves alone, and the invariants of
    all reachable states. *)
From Coq Require Import List Bool Arith ZArith Lia Sorted Permutation.
From Verif Require Import ProtoModel ProtoSpec ProtoProofs ShModel ShRun ShLists ShInv ShMan ShHooks ShAdd ShRem ShApi ShUnload.
Import ListNotations.
Local Open Scope nat_scope.

(** Observations of running code: handlers that are called are live and not
    paused. *)
Definition run_obs (h : hs) (o : obs) : Prop :=
  match o with
  | OHandler _ n hd _ _ => exists s a p k, hook_at h s a p k /\ hk_nid k = n /\ hk_handler k = hd /\ hk_paused k = false
  | ODelete _ | ORegister _ | OUnregister _ | OPatch _ _ | OThunkAlloc _ => False
  | _ => True
  end.

(** How often the listener [l] of [p] was or still has to be notified *)
Definition is_ready (p l : Z) (o : obs) : bool := match o with OReady p' l' => Z.eqb p' p && Z.eqb l' l | _ => false end.
Definition is_pend (p l : Z) (x : pend) : bool := Z.eqb (pd_plug x) p && Z.eqb (pd_listener x) l.
Definition count {X} (f : X -> bool) (l : list X) : nat := length (filter f l).
Definition readies (p l : Z) (b : base) : nat := count (is_ready p l) (h_tr (b_h b)) + count (is_pend p l) (b_pend b).
Lemma count_app : forall X (f : X -> bool) l l', count f (l ++ l') = count f l + count f l'.
Proof. intros. unfold count. rewrite filter_app, app_length. reflexivity. Qed.
Lemma count_rev : forall X (f : X -> bool) l, count f (rev l) = count f l.
Proof.
  intros X f l. induction l as [|x l IH]; [reflexivity|]. cbn [rev]. rewrite count_app, IH. unfold count. cbn [filter]. destruct (f x); cbn; lia.
Qed.

(** Nothing that concerns hooks changes from [b] to [b']. *)
Record rstep (b b' : base) : Prop := {
  rs_pfs : h_pfs (b_h b') = h_pfs (b_h b); rs_mshi : h_mshi (b_h b') = h_mshi (b_h b);
  rs_mans : h_mans (b_h b') = h_mans (b_h b); rs_vfns : h_vfns (b_h b') = h_vfns (b_h b);
  rs_ids : h_ids (b_h b') = h_ids (b_h b); rs_mem : h_mem (b_h b') = h_mem (b_h b);
  rs_vt : h_vt (b_h b') = h_vt (b_h b); rs_delegs : h_delegs (b_h b') = h_delegs (b_h b);
  rs_nxt : h_nxt (b_h b) <= h_nxt (b_h b');
  rs_wt : WT (b_h b) (c_tasks (b_k b)) -> WT (b_h b') (c_tasks (b_k b'));
  rs_tr : tr_more (run_obs (b_h b)) (b_h b) (b_h b');
  rs_ready : forall p l, readies p l b' = readies p l b }.

Lemma run_obs_vfns : forall h h' o, h_vfns h' = h_vfns h -> run_obs h' o -> run_obs h o.
Proof.
  intros h h' o E. destruct o; cbn [run_obs]; auto. intros (s & a & p & k & H & R). exists s, a, p, k. split; auto.
  destruct H as (v & i & H). exists v, i. rewrite <- E. exact H.
Qed.

Lemma rstep_refl : forall b, rstep b b.
Proof. intros b. constructor; auto. apply tr_more_refl. Qed.
Lemma rstep_trans : forall a b c, rstep a b -> rstep b c -> rstep a c.
Proof.
  intros a b c A B. destruct A as [A1 A2 A3 A4 A5 A6 A7 A8 A9 A10 (l & A11 & A12) A13]. destruct B as [B1 B2 B3 B4 B5 B6 B7 B8 B9 B10 (l' & B11 & B12) B13].
  constructor; try congruence; auto; [lia|]. exists (l' ++ l). split; [rewrite B11, A11, app_assoc; reflexivity|].
  apply Forall_app. split; auto. eapply Forall_impl; [|exact B12]. intros o. apply run_obs_vfns. exact A4.
Qed.
(** only contexts, variables or pending unloads change *)
Lemma rstep_same : forall b b', b_h b' = b_h b -> c_tasks (b_k b') = c_tasks (b_k b) -> b_pend b' = b_pend b -> rstep b b'.
Proof. intros b b' E T Pd. constructor; unfold readies; rewrite ?E, ?T, ?Pd; auto. apply tr_more_refl. Qed.
Lemma WT_emit : forall h o ts, WT h ts -> WT (emit h o) ts.
Proof. intros h o ts T. apply (WT_ext h (emit h o)); auto. Qed.
Definition no_ready (o : obs) : Prop := match o with OReady _ _ => False | _ => True end.
Lemma rstep_emit : forall b o, run_obs (b_h b) o /\ no_ready o -> rstep b (bemit b o).
Proof.
  intros b o [H Hr]. constructor; auto.
  - intros T. apply (WT_emit (b_h b)). exact T.
  - exists [o]. split; [reflexivity|]. constructor; auto.
  - intros p l. unfold readies. destruct o; try contradiction; reflexivity.
Qed.
Lemma rstep_fresh : forall b b' n, h_nxt (b_h b) <= n -> b_h b' = set_nxt (b_h b) n -> c_tasks (b_k b') = c_tasks (b_k b) -> b_pend b' = b_pend b -> rstep b b'.
Proof.
  intros b b' n L E T Pd. constructor; unfold readies; rewrite ?E, ?T, ?Pd; auto.
  - intros W. apply (WT_ext (b_h b)); auto.
  - apply tr_more_eq. reflexivity.
Qed.

Lemma rstep_upd_vars : forall b fid f, rstep b (upd_vars b fid f).
Proof. intros. apply rstep_same; reflexivity. Qed.
Lemma rstep_set_vars : forall b v, rstep b (set_vars b v).
Proof. intros. apply rstep_same; reflexivity. Qed.
Lemma rstep_set_cs : forall b c, rstep b (set_cs b c).
Proof. intros. apply rstep_same; reflexivity. Qed.
Lemma rstep_write : forall b p z b', write_ret b p z = Some b' -> rstep b b'.
Proof.
  intros b [[fid o]|] z b' E; cbn [write_ret] in E; [|discriminate]. destruct (get_vars b fid); [|discriminate].
  injection E as <-. apply rstep_upd_vars.
Qed.

Lemma run_task_spec : forall k t k', run_task k t = Some k' -> WT (c_h k) (c_tasks k) ->
  WT (c_h k') (c_tasks k') /\ c_cs k' = c_cs k.
Proof.
  intros k t k' E T. unfold run_task in E. destruct (find (fun p => fst p =? t) (c_tasks k)) as [[t' th]|] eqn:F; [|discriminate].
  unfold thunk_free in E. destruct (memb th (h_thunks (c_h k))) eqn:Mb; [|discriminate]. injection E as <-. split; [|reflexivity].
  cbn [c_h c_tasks]. apply memb_in in Mb.
  set (ts' := del_first (fun p => fst p =? t) (c_tasks k)).
  assert (Hin : In (t', th) (c_tasks k)) by (apply (find_some _ _ F)).
  assert (Et : t' = t) by (apply find_some in F; destruct F as [_ F]; apply Nat.eqb_eq in F; exact F). subst t'.
  destruct T as [T1 T2 T3 T4 T5 T6].
  assert (Pm : Permutation (map snd (c_tasks k)) (th :: map snd ts')).
  { unfold ts'. clear - F. induction (c_tasks k) as [|[a b] l IH]; [discriminate|]. cbn [find del_first fst] in *.
    destruct (a =? t) eqn:E.
    - injection F as -> ->. reflexivity.
    - cbn [map snd]. rewrite (IH F). apply perm_swap. }
  assert (Pm2 : Permutation (vfn_thunks (c_h k) ++ map snd (c_tasks k)) (th :: vfn_thunks (c_h k) ++ map snd ts')).
  { rewrite Pm. symmetry. apply Permutation_middle. }
  assert (ND : NoDup (th :: vfn_thunks (c_h k) ++ map snd ts')) by (eapply Permutation_NoDup; [exact Pm2|exact T1]).
  inversion ND as [|? ? Nth ND']; subst.
  change (vfn_thunks (emit _ _)) with (vfn_thunks (c_h k)).
  constructor.
  - exact ND'.
  - intros x. cbn [h_thunks emit set_tr set_thunks]. rewrite in_del_nat by exact T3. rewrite <- T2, Pm2. cbn [In]. split.
    + intros Hx. split; [right; exact Hx|]. intros ->. contradiction.
    + intros [[C|Hx] Hn]; [congruence|exact Hx].
  - cbn. apply nodup_del_first_id. exact T3.
  - apply nodup_del_first. exact T4.
  - intros x Hx. cbn in Hx. apply in_del_first_weak in Hx. apply T5. exact Hx.
  - intros x Hx. apply T6. apply in_map_iff in Hx. destruct Hx as (p & <- & Hp). apply in_map. apply in_del_first_weak in Hp. exact Hp.
Qed.

Lemma rstep_run_task : forall b t k', run_task (b_k b) t = Some k' -> rstep b (set_k b k').
Proof.
  intros b t k' E. pose proof (run_task_spec _ _ _ E) as Sp. unfold run_task in E.
  destruct (find _ (c_tasks (b_k b))) as [[t' th]|]; [|discriminate]. unfold thunk_free in E.
  destruct (memb th (h_thunks (c_h (b_k b)))); [|discriminate]. injection E as <-. constructor; auto.
  - intros W. apply Sp. exact W.
  - exists [OThunkFree th]. split; [reflexivity|]. constructor; [exact I|constructor].
Qed.

Lemma resolve_obs : forall h l r o, resolve_pending l = (r, o) -> Forall (run_obs h) o.
Proof.
  intros h l. induction l as [|p l IH]; intros r o E; cbn [resolve_pending] in E.
  - injection E as <- <-. constructor.
  - destruct (resolve_pending l) as [r1 o1]. specialize (IH r1 o1 eq_refl). destruct (pd_deact p); injection E as <- <-; auto.
    constructor; [exact I|exact IH].
Qed.

Lemma resolve_count : forall p l ps r o, resolve_pending ps = (r, o) -> count (is_ready p l) o + count (is_pend p l) r = count (is_pend p l) ps.
Proof.
  intros p l ps. induction ps as [|x ps IH]; intros r o E; cbn [resolve_pending] in E.
  - injection E as <- <-. reflexivity.
  - destruct (resolve_pending ps) as [r1 o1]. specialize (IH r1 o1 eq_refl). unfold count in *. destruct (pd_deact x); injection E as <- <-; cbn [filter].
    + change (is_pend p l x) with (is_ready p l (OReady (pd_plug x) (pd_listener x))). destruct (is_ready p l _); cbn [length]; lia.
    + change (is_pend p l (Pend (pd_plug x) (pd_listener x) true)) with (is_pend p l x). destruct (is_pend p l x); cbn [length]; lia.
Qed.

Lemma rstep_resolve : forall b, rstep b (do_resolve b).
Proof.
  intros b. unfold do_resolve. destruct (resolve_pending (b_pend b)) as [r o] eqn:E. constructor; auto.
  - intros T. apply (WT_ext (b_h b)); auto.
  - exists (rev o). split; [reflexivity|]. apply Forall_rev. apply (resolve_obs _ _ _ _ E).
  - intros p l. change (count (is_ready p l) (rev o ++ h_tr (b_h b)) + count (is_pend p l) r = readies p l b). unfold readies. rewrite count_app, count_rev.
    pose proof (resolve_count p l _ _ _ E). lia.
Qed.

Lemma rstep_end_context : forall b b', end_context b = Some b' -> rstep b b'.
Proof.
  intros b b' E. unfold end_context in E. destruct (cs_front (b_cs b)) as [c|]; [|discriminate].
  destruct (match cx_task c with None => Some (b_k b) | Some t => run_task (b_k b) t end) as [k|] eqn:Ek; [|discriminate].
  assert (R1 : rstep b (set_k b k)).
  { destruct (cx_task c) as [t|]; [apply (rstep_run_task b t k Ek)|]. injection Ek as <-. apply rstep_same; reflexivity. }
  set (b1 := set_k b _) in E.
  assert (R2 : rstep b b1).
  { eapply rstep_trans; [exact R1|]. apply rstep_same; reflexivity. }
  destruct ((cs_depth (b_cs b1) =? 0) && negb (length (b_pend b1) =? 0)); injection E as <-; [|exact R2].
  eapply rstep_trans; [exact R2|apply rstep_resolve].
Qed.

(** GetNext returns a live, unpaused hook. *)
Lemma next_in_live : forall i post st c c' k, next_in i post st c = Some (c', Some k) ->
  In k (hooks_of post i) /\ hk_paused k = false.
Proof.
  intros i post st c c' k E. unfold next_in in E. destruct (adv (cx_iter c) (if_obj i) post (hooks_of post i)) as [l|] eqn:A; [|discriminate].
  assert (Sub : forall x, In x l -> In x (hooks_of post i)).
  { intros x Hx. unfold adv in A. destruct (cx_iter c) as [|n|io p].
    - injection A as <-. exact Hx.
    - revert A Hx. generalize (hooks_of post i). intros m. induction m as [|y m IH]; intros A Hx; [discriminate|]. cbn [after_node] in A.
      destruct (hk_nid y =? n); [injection A as <-; right; exact Hx|right; auto].
    - destruct ((io =? if_obj i) && eqb p post); [|discriminate]. injection A as <-. exact Hx. }
  assert (Sk : forall m r y, skip_paused m = y :: r -> In y m /\ hk_paused y = false).
  { induction m as [|z m IH]; intros r y Em; cbn [skip_paused] in Em; [discriminate|]. destruct (hk_paused z) eqn:Pz.
    - destruct (IH r y Em). split; [right|]; auto.
    - injection Em as -> ->. split; [left; reflexivity|exact Pz]. }
  destruct (skip_paused l) as [|y r] eqn:Es; [discriminate|]. injection E as _ <-. destruct (Sk l r y Es). auto.
Qed.

Lemma obj_iface_in : forall h io i, obj_iface h io = Some i -> if_obj i = io /\ exists v, In v (h_vfns h) /\ In i (vf_ifaces v).
Proof.
  intros h io i E. apply find_some in E. destruct E as [E1 E2]. apply Nat.eqb_eq in E2. split; auto.
  apply in_flat_map in E1. exact E1.
Qed.

Lemma get_next_live : forall h c c' k, get_next h c = Some (c', Some k) ->
  exists s a p, hook_at h s a p k /\ hk_paused k = false.
Proof.
  intros h c c' k E.
  assert (VP : forall post c0, next_vp h post c0 = Some (c', Some k) -> exists s a p, hook_at h s a p k /\ hk_paused k = false).
  { intros post c0 E0. unfold next_vp in E0. destruct (cx_vfn c0) as [vo|]; [|discriminate].
    destruct (get_vfn h vo) as [v|] eqn:Gv; [|discriminate]. destruct (find_iface v 0) as [i|] eqn:Fi; [|discriminate].
    destruct (next_in i post (if post then SPostVP else SPreVP) c0) as [[c1 [k1|]]|] eqn:En; try discriminate.
    injection E0 as -> ->. destruct (next_in_live _ _ _ _ _ _ En) as [A B]. destruct (get_vfn_obj _ _ _ Gv) as [Hv _].
    unfold find_iface in Fi. destruct (find_some _ _ Fi) as [Hi _].
    exists (vf_ptr v), (if_ptr i), post. split; auto. exists v, i. auto. }
  assert (IN : forall post c0, next_inst h post c0 = Some (c', Some k) -> exists s a p, hook_at h s a p k /\ hk_paused k = false).
  { intros post c0 E0. unfold next_inst in E0. destruct (cx_iface c0) as [io|]; [|apply (VP _ _ E0)].
    destruct (obj_iface h io) as [i|] eqn:Oi; [|discriminate].
    destruct (next_in i post (if post then SPost else SPre) c0) as [[c1 [k1|]]|] eqn:En; [|apply (VP _ _ E0)|discriminate].
    injection E0 as -> ->. destruct (next_in_live _ _ _ _ _ _ En) as [A B]. destruct (obj_iface_in _ _ _ Oi) as (_ & v & Hv & Hi).
    exists (vf_ptr v), (if_ptr i), post. split; auto. exists v, i. auto. }
  unfold get_next in E. destruct (cx_state c); try discriminate; eauto.
Qed.

Lemma rstep_call_next : forall b fid f b' o, call_next b fid f = Some (b', o) -> rstep b b'.
Proof.
  intros b fid f b' o E. unfold call_next in E. destruct (cs_at (b_cs b) (hi_ctx f)) as [c|]; [|discriminate].
  destruct (get_next (b_h b) c) as [[c' [k|]]|] eqn:En; [| |discriminate].
  - destruct (memb (hk_nid k) (h_delegs (b_h b))); [|discriminate]. destruct (cx_ifp c') as [ip|]; [|discriminate].
    injection E as <- <-. eapply rstep_trans; [apply (rstep_set_cs b)|]. eapply rstep_trans; [apply rstep_upd_vars|].
    apply rstep_emit. split; [|exact I]. cbn [run_obs]. destruct (get_next_live _ _ _ _ En) as (s & a & p & H1 & H2). exists s, a, p, k. auto.
  - injection E as <- <-. apply rstep_set_cs.
Qed.

Definition out_base (o : outcome) : base := match o with Stop b _ => b | Fin b _ => b end.

Lemma rstep_finish : forall b fid f o, finish b fid f = Some o -> rstep b (out_base o).
Proof.
  intros b fid f o E. unfold finish in E. destruct (get_vars b fid); [|discriminate]. destruct (cs_at (b_cs b) (hi_ctx f)); [|discriminate].
  destruct (end_context b) as [b1|] eqn:E1; [|discriminate]. destruct (read_ret b1 _); [|discriminate]. injection E as <-. cbn [out_base].
  eapply rstep_trans; [apply (rstep_end_context _ _ E1)|]. eapply rstep_trans; [apply (rstep_set_vars b1)|]. apply rstep_emit. split; exact I.
Qed.
Lemma rstep_run_post : forall b fid f o, run_post b fid f = Some o -> rstep b (out_base o).
Proof.
  intros b fid f o E. unfold run_post in E. destruct (call_next b fid f) as [[b1 [k|]]|] eqn:E1; [| |discriminate].
  - injection E as <-. apply (rstep_call_next _ _ _ _ _ E1).
  - eapply rstep_trans; [apply (rstep_call_next _ _ _ _ _ E1)|apply (rstep_finish _ _ _ _ E)].
Qed.
Lemma rstep_begin_post : forall b fid f o, begin_post b fid f = Some o -> rstep b (out_base o).
Proof.
  intros b fid f o E. eapply rstep_trans; [apply rstep_upd_vars|]. eapply rstep_trans; [|apply (rstep_run_post _ _ _ _ E)].
  apply rstep_emit. split; exact I.
Qed.
Lemma rstep_run_pre : forall b fid f o, run_pre b fid f = Some o -> rstep b (out_base o).
Proof.
  intros b fid f o E. unfold run_pre in E. destruct (call_next b fid f) as [[b1 [k|]]|] eqn:E1; [| |discriminate].
  - injection E as <-. apply (rstep_call_next _ _ _ _ _ E1).
  - pose proof (rstep_call_next _ _ _ _ _ E1) as R1. eapply rstep_trans; [exact R1|].
    destruct (get_vars b1 fid); [|discriminate]. destruct (cs_at (b_cs b1) (hi_ctx f)); [|discriminate].
    destruct (_ && _).
    + destruct (hi_addr f); [|discriminate]. injection E as <-. apply rstep_emit. split; exact I.
    + eapply rstep_trans; [|apply (rstep_begin_post _ _ _ _ E)]. apply rstep_upd_vars.
Qed.
Lemma rstep_handler_done : forall b fid f nid z o, handler_done b fid f nid z = Some o -> rstep b (out_base o).
Proof.
  intros b fid f nid z o E. unfold handler_done in E. destruct (get_vars b fid) as [v|]; [|discriminate].
  destruct (cs_at (b_cs b) (hi_ctx f)) as [c|]; [|discriminate].
  set (b2 := upd_vars _ _ _) in E.
  assert (R2 : rstep b b2). { eapply rstep_trans; [|apply rstep_upd_vars]. apply rstep_emit. split; exact I. }
  destruct (if meta_ge (v_cur v) MOverride then write_ret b2 (cx_over c) z else Some b2) as [b3|] eqn:E3; [|discriminate].
  assert (R3 : rstep b b3).
  { eapply rstep_trans; [exact R2|]. destruct (meta_ge (v_cur v) MOverride); [apply (rstep_write _ _ _ _ E3)|].
    injection E3 as <-. apply rstep_refl. }
  eapply rstep_trans; [exact R3|]. destruct (hi_phase f); [|discriminate|].
  - apply (rstep_run_pre _ _ _ _ E).
  - apply (rstep_run_post _ _ _ _ E).
Qed.
Lemma rstep_set_res : forall b m b', set_res b m = Some b' -> rstep b b'.
Proof.
  intros b m b' E. unfold set_res in E. destruct (cs_front (b_cs b)) as [c|]; [|discriminate]. destruct (cx_frame c) as [fid|]; [|discriminate].
  destruct (get_vars b fid); [|discriminate]. injection E as <-. apply rstep_upd_vars.
Qed.
Lemma rstep_reset_ignore : forall b b', reset_ignore b = Some b' -> rstep b b'.
Proof.
  intros b b' E. unfold reset_ignore in E. destruct (cs_front (b_cs b)) as [c|]; [|injection E as <-; apply rstep_refl].
  destruct (cx_state c); try (injection E as <-; apply rstep_refl). apply rstep_end_context. exact E.
Qed.
Lemma rstep_unwind : forall below b a z s, unwind b a z below = Some s -> rstep b (s_b s).
Proof.
  induction below as [|f below IH]; intros b a z s E; destruct a; cbn [unwind] in E.
  - injection E as <-. apply rstep_refl.
  - destruct (reset_ignore b) as [b1|] eqn:E1; [|discriminate]. injection E as <-. apply (rstep_reset_ignore _ _ E1).
  - destruct (set_res b MSupercede); discriminate.
  - injection E as <-. apply rstep_refl.
  - destruct (reset_ignore b) as [b1|] eqn:E1; [|discriminate]. injection E as <-. apply (rstep_reset_ignore _ _ E1).
  - destruct (set_res b MSupercede) as [b1|] eqn:E1; [|discriminate]. destruct (f_hook f) as [h|]; [|discriminate].
    destruct (hi_run h) as [nid|]; [|discriminate]. destruct (handler_done b1 (f_id f) h nid z) as [[b2 h'|b2 z']|] eqn:E2; [| |discriminate].
    + injection E as <-. eapply rstep_trans; [apply (rstep_set_res _ _ _ E1)|apply (rstep_handler_done _ _ _ _ _ _ E2)].
    + eapply rstep_trans; [apply (rstep_set_res _ _ _ E1)|]. eapply rstep_trans; [apply (rstep_handler_done _ _ _ _ _ _ E2)|apply (IH _ _ _ _ E)].
Qed.
Lemma rstep_resume : forall o fid a below s, resume (Some o) fid a below = Some s -> rstep (out_base o) (s_b s).
Proof.
  intros [b f|b z] fid a below s E; cbn [resume out_base] in *.
  - injection E as <-. apply rstep_refl.
  - apply (rstep_unwind _ _ _ _ _ E).
Qed.
Lemma resume_some : forall o fid a below s, resume o fid a below = Some s -> exists x, o = Some x.
Proof. intros [x|] fid a below s E; [eauto|discriminate]. Qed.

Lemma rstep_setup : forall b fid pf slot this b' ci a, setup_loop b fid pf slot this = Some (b', ci, a) -> rstep b b'.
Proof.
  intros b fid pf slot this b' ci a E. unfold setup_loop in E.
  assert (Fr : (let (old, cs1) := cs_make_next (b_cs b) in
     match setup_tail (b_h b) (Ctx SBorn (cx_iter old) (cx_vfn old) (cx_iface old) (cx_frame old) (cx_this old)
                 (cx_orig old) (cx_over old) (cx_ifp old) true (cx_task old)) pf slot this fid (Some (RP fid true)) (Some (RP fid false)) with
    | None => None
    | Some (c', a) => Some (set_cs b (cs_set_front cs1 c'), cs_depth (b_cs b), a)
    end) = Some (b', ci, a) -> rstep b b').
  { destruct (cs_make_next (b_cs b)) as [old cs1]. destruct (setup_tail _ _ _ _ _ _ _ _) as [[c' a']|]; [|discriminate].
    intros X. injection X as <- _ _. apply rstep_set_cs. }
  destruct (cs_front (b_cs b)) as [c|]; [|apply Fr; exact E].
  assert (Rc : (if is_recall (cx_state c) then
            match cx_frame c with
            | None => None
            | Some pfid =>
                match get_vars b pfid with
                | None => None
                | Some pv =>
                    let b1 := upd_vars b fid (fun v => vs_prev (v_prev pv) (vs_status (v_status pv) v)) in
                    let post := is_recall_post (cx_state c) in
                    let orig := if post then cx_orig c else Some (RP fid true) in
                    let over := if post && negb (meta_ge (v_status pv) MOverride) then cx_orig c else cx_over c in
                    let c1 := Ctx (cx_state c) (cx_iter c) (cx_vfn c) (cx_iface c) (cx_frame c) (cx_this c)
                                  (cx_orig c) (cx_over c) (cx_ifp c) (negb post) (cx_task c) in
                    match setup_tail (b_h b) c1 pf slot this fid orig over with
                    | None => None
                    | Some (c', a) => Some (set_cs b1 (cs_set_front (b_cs b) c'), cs_depth (b_cs b) - 1, a)
                    end
                end
            end else None) = Some (b', ci, a) -> rstep b b').
  { destruct (is_recall (cx_state c)); [|discriminate]. destruct (cx_frame c) as [pfid|]; [|discriminate].
    destruct (get_vars b pfid) as [pv|]; [|discriminate]. intros X. cbv zeta in X.
    match type of X with match ?t with _ => _ end = _ => destruct t as [[c' a']|]; [|discriminate] end.
    injection X as <- _ _. eapply rstep_trans; [apply rstep_upd_vars|apply rstep_set_cs]. }
  destruct (cx_state c) eqn:Es; cbn [is_recall] in *; try (apply Fr; exact E); try (apply Rc; exact E).
  destruct (hookfunc_vfn (b_h b) pf slot) as [ov|]; [|discriminate]. injection E as <- _ _.
  eapply rstep_trans; [apply (rstep_set_cs b)|apply rstep_upd_vars].
Qed.

Lemma rstep_do_call : forall s this vo idx p a s', do_call s this vo idx p a = Some s' -> rstep (s_b s) (s_b s').
Proof.
  intros s this vo idx p a s' E. unfold do_call in E. set (b := s_b s) in *. set (h := b_h b) in *.
  set (b0 := set_h b (set_nxt h (S (h_nxt h)))) in E.
  assert (R0 : rstep b b0). { apply (rstep_fresh b b0 (S (h_nxt h))); [unfold h; lia|reflexivity|reflexivity|reflexivity]. }
  destruct (h_mem h (slot_of h this vo idx)) as [c|pf].
  - injection E as <-. cbn [s_b]. eapply rstep_trans; [exact R0|]. apply rstep_emit. split; exact I.
  - destruct (h_pfs h pf) as [i|]; [|discriminate].
    match type of E with context [setup_loop ?x] => set (b1 := x) in E end.
    assert (R1 : rstep b b1). { eapply rstep_trans; [exact R0|]. eapply rstep_trans; [|apply rstep_set_vars]. apply rstep_emit. split; exact I. }
    destruct (setup_loop b1 _ pf _ this) as [[[b2 ci] addr]|] eqn:E2; [|discriminate].
    pose proof (rstep_setup _ _ _ _ _ _ _ _ E2) as R2. destruct (resume_some _ _ _ _ _ E) as (o & Eo). rewrite Eo in E.
    pose proof (rstep_resume _ _ _ _ _ E) as R3. eapply rstep_trans; [exact R1|]. eapply rstep_trans; [exact R2|].
    eapply rstep_trans; [|exact R3]. eapply rstep_trans; [|apply (rstep_run_pre _ _ _ _ Eo)]. apply rstep_upd_vars.
Qed.

Lemma rstep_do_recall : forall b b', do_recall b = Some b' -> rstep b b'.
Proof.
  intros b b' E. unfold do_recall in E. destruct (cs_front (b_cs b)) as [c|]; [|discriminate]. destruct (cx_frame c) as [fid|]; [|discriminate].
  destruct (get_vars b fid); [|discriminate]. injection E as <-. eapply rstep_trans; [apply rstep_upd_vars|apply rstep_set_cs].
Qed.

Lemma rstep_recall_call : forall s res val offs vo idx p s', recall_call s res val offs vo idx p = Some s' -> rstep (s_b s) (s_b s').
Proof.
  intros s res val offs vo idx p s' E. unfold recall_call in E. destruct (set_res (s_b s) res) as [b1|] eqn:E1; [|discriminate].
  destruct (do_recall b1) as [b2|] eqn:E2; [|discriminate].
  match type of E with match ?x with _ => _ end = _ => destruct x as [b3|] eqn:E3; [|discriminate] end.
  destruct (iface_ptr b3); [|discriminate].
  eapply rstep_trans; [apply (rstep_set_res _ _ _ E1)|]. eapply rstep_trans; [apply (rstep_do_recall _ _ E2)|].
  assert (R3 : rstep b2 b3).
  { destruct (meta_ge res MOverride); [|injection E3 as <-; apply rstep_refl]. destruct (cs_front (b_cs b2)); [|discriminate].
    apply (rstep_write _ _ _ _ E3). }
  eapply rstep_trans; [exact R3|]. apply (rstep_do_call _ _ _ _ _ _ _ E).
Qed.

(** Events that run code rather than call the API for hooks *)
Definition runs (e : event) : bool :=
  match e with ECall _ _ _ _ | ESHCall _ _ _ _ | EReturn _ | ESetRes _ | ERecall _ _ _ _ _ _ => true | _ => false end.

Theorem step_runs : forall s e s', runs e = true -> step s e = Ok s' -> rstep (s_b s) (s_b s').
Proof.
  intros s e s' R E. destruct e; try discriminate; cbn [step] in E.
  - destruct (do_call s this vo idx param APlain) as [x|] eqn:C; [|discriminate]. injection E as <-. apply (rstep_do_call _ _ _ _ _ _ _ C).
  - destruct (do_call _ this vo idx param AReset) as [x|] eqn:C; [|discriminate]. injection E as <-.
    eapply rstep_trans; [|apply (rstep_do_call _ _ _ _ _ _ _ C)]. apply rstep_set_cs.
  - unfold do_return in E. destruct (s_fr s) as [|f below]; [discriminate|]. destruct (f_hook f) as [h|].
    + destruct (hi_run h) as [nid|].
      * destruct (resume _ _ _ _) as [x|] eqn:C; [|discriminate]. injection E as <-. destruct (resume_some _ _ _ _ _ C) as (o & Eo).
        rewrite Eo in C. eapply rstep_trans; [apply (rstep_handler_done _ _ _ _ _ _ Eo)|apply (rstep_resume _ _ _ _ _ C)].
      * destruct (hi_phase h); try discriminate. destruct (resume _ _ _ _) as [x|] eqn:C; [|discriminate]. injection E as <-.
        destruct (resume_some _ _ _ _ _ C) as (o & Eo). rewrite Eo in C.
        eapply rstep_trans; [|apply (rstep_resume _ _ _ _ _ C)].
        eapply rstep_trans; [|apply (rstep_begin_post _ _ _ _ Eo)]. eapply rstep_trans; [|apply rstep_upd_vars]. apply rstep_emit. split; exact I.
    + destruct (unwind _ _ _ _) as [x|] eqn:C; [|discriminate]. injection E as <-.
      eapply rstep_trans; [|apply (rstep_unwind _ _ _ _ _ C)]. apply rstep_emit. split; exact I.
  - destruct (in_handler s); [|discriminate]. destruct (set_res (s_b s) m) as [b|] eqn:C; [|discriminate]. injection E as <-. cbn [s_b].
    apply (rstep_set_res _ _ _ C).
  - destruct (in_handler s) as [[fid nid]|]; [|discriminate]. destruct (recall_call _ res val offs vo idx param) as [x|] eqn:C; [|discriminate].
    injection E as <-. eapply rstep_trans; [|apply (rstep_recall_call _ _ _ _ _ _ _ _ C)]. apply rstep_emit. split; exact I.
Qed.
