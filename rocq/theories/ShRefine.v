(** The machine of ShRun.v does exactly what the abstract one of ShAbs.v does,
    and never anything undefined, as long as its users keep to some rules. *)
From Coq Require Import List Bool Arith ZArith Lia Sorted.
From Verif Require Import ProtoModel ProtoSpec ProtoProofs ShModel ShRun ShLists ShInv ShMan ShHooks ShAdd ShRem ShApi ShUnload ShHist ShGood ShSpec ShView ShAbs ShFrames ShRel ShCalls ShMoves ShChange ShMgr ShOrder ShOwned ShFollow.
Import ListNotations.
Local Open Scope nat_scope.

(** The rules.  No calls on null objects.  Calls go through positions that the hook function knows; a
    handler recalls the function it was called for, on the same object, while
    hooks are left; [api_ok] for the API. *)
Definition allowed (h : hs) (A : list aframe) (e : event) : Prop :=
  match e with
  | ECall this vo idx _ | ESHCall this vo idx _ => this <> 0%Z /\ knows h this vo idx
  | ERecall _ _ offs vo idx _ =>
      match A with
      | f :: _ => match af_hook f with
                  | Some a => a_alive a = true /\ (a_ifp a + offs)%Z = a_this a /\
                              slot_of h (a_this a) vo idx = a_slot a /\ knows h (a_this a) vo idx
                  | None => True
                  end
      | [] => True
      end
  | _ => api_ok h A e
  end.

(** The invariant *)
Record CInv (m0 : Z -> Z) (s : state) (A : list aframe) : Prop := {
  ci_good : Good m0 s; ci_ws : WS (s_h s); ci_own : owned (s_h s); ci_th : h_thunks (s_h s) = [];
  ci_cs : cs_ok (b_cs (s_b s));
  ci_rel : rel (s_h s) (b_vars (s_b s)) false (s_fr s) (stk (b_cs (s_b s))) A;
  ci_nd : NoDup (ids (s_fr s));
  ci_fresh : forall g, In g (ids (s_fr s)) -> g < h_nxt (s_h s) }.

Lemma CInv_init : forall pfs mem vt, (forall f i, pfs f = Some i -> proto_wf (pf_proto i)) -> CInv mem (init pfs mem vt) [].
Proof.
  intros pfs mem vt P. constructor.
  - apply Good_init. exact P.
  - constructor; cbn.
    + intros o1 o2 f E. discriminate.
    + intros o (x & l & E). discriminate.
    + discriminate.
  - intros s a p k (v & i & [] & _).
  - reflexivity.
  - split; cbn; [lia|constructor].
  - constructor.
  - constructor.
  - intros g [].
Qed.

(** Frames only come from the stack. *)
Lemma take_ign_ids : forall A A1, take_ign A = Some A1 -> map af_id A1 = map af_id A.
Proof.
  induction A as [|f A IH]; intros A1 E; [discriminate|]. cbn [take_ign] in E. destruct (af_hook f); [discriminate|].
  destruct (af_ign f); [injection E as <-; reflexivity|]. destruct (take_ign A) as [r|]; [|discriminate]. injection E as <-. cbn. rewrite (IH r eq_refl). reflexivity.
Qed.
Lemma unwind_ids : forall h A aft z w, incl (map af_id (as_fr (a_unwind h aft z A w))) (map af_id A).
Proof.
  intros h A. induction A as [|f A IH]; intros aft z w.
  - destruct aft; cbn; intros x H; exact H.
  - destruct aft; cbn [a_unwind].
    + apply incl_refl.
    + unfold a_reset. destruct (take_ign (f :: A)) as [r|] eqn:E; [|apply incl_refl]. cbn [as_fr]. rewrite (take_ign_ids _ _ E). apply incl_refl.
    + destruct (af_hook f); [|apply incl_refl]. destruct (a_done _ _ _ _ _ _) as [a' w'|z' w'].
      * cbn. apply incl_refl.
      * apply incl_tl. apply IH.
Qed.
Lemma resume_ids : forall h o fid aft A, incl (map af_id (as_fr (a_resume h o fid aft A))) (fid :: map af_id A).
Proof.
  intros h [a w|z w] fid aft A.
  - apply incl_refl.
  - apply incl_tl. apply unwind_ids.
Qed.

(** ** Events that run code *)
Lemma rel_tr : forall h l vs su fr cs A, rel h vs su fr cs A -> rel (set_tr h l) vs su fr cs A.
Proof. intros h l vs su fr cs A R. apply (rel_ext h); auto. Qed.

Lemma run_inv : forall m0 s A e s' x n, CInv m0 s A -> runs e = true -> step s e = Ok s' ->
  h_nxt (s_h s) <= n -> sok (set_nxt (s_h s) n) (h_tr (s_h s)) s' x ->
  (forall g, In g (map af_id (as_fr x)) -> g < n) ->
  CInv m0 s' (as_fr x) /\ b_pend (s_b s') = w_pend (as_w x) /\ since s s' (w_obs (as_w x)).
Proof.
  intros m0 s A e s' x n [C1 C2 C3 C4 C5 C6 C7 C8] Hr E Hn [S1 S2 S3 S4 S5] Hi. change (b_h (s_b s')) with (s_h s') in S1.
  split; [|split; [exact S2|unfold since; rewrite S1; reflexivity]].
  constructor.
  - apply (step_good m0 s e s' C1 E).
  - rewrite S1. apply (WS_same (s_h s)); auto.
  - rewrite S1. apply (owned_same (s_h s)); auto.
  - rewrite S1. exact C4.
  - exact S3.
  - rewrite S1. apply rel_tr. exact S4.
  - exact S5.
  - rewrite (rel_ids _ _ _ _ _ _ S4), S1. exact Hi.
Qed.

Lemma CInv_pre : forall m0 s A, CInv m0 s A -> pre_call m0 (s_b s) (s_fr s) (stk (b_cs (s_b s))) A.
Proof.
  intros m0 s A [[W P R D] C2 C3 C4 C5 C6 C7 C8]. constructor; auto; apply W.
Qed.
Lemma ids_fresh : forall m0 s A, CInv m0 s A -> forall g, In g (h_nxt (s_h s) :: map af_id A) -> g < S (h_nxt (s_h s)).
Proof.
  intros m0 s A C g [<-|H]; [lia|]. rewrite <- (rel_ids _ _ _ _ _ _ (ci_rel _ _ _ C)) in H. pose proof (ci_fresh _ _ _ C g H). lia.
Qed.

Lemma set_nxt_self : forall h, set_nxt h (h_nxt h) = h.
Proof. intros []. reflexivity. Qed.

(** Returning from a native function *)
Lemma return_native : forall h t0 b fid aft fr ig A z p, WH h -> b_h b = set_tr h t0 -> b_pend b = p -> cs_ok (b_cs b) -> NoDup (ids fr) ->
  rel h (b_vars b) false (Frame fid aft None :: fr) (stk (b_cs b)) (AFrame fid aft ig None :: A) ->
  exists s x, unwind (bemit b (ONativeRet fid z)) aft z fr = Some s /\
    (if ig then match aft with AReset => AState A (close (depth A) (wemit (ONativeRet fid z) (World p []))) | _ => AState (AFrame fid aft ig None :: A) (wemit (ONativeRet fid z) (World p [])) end
     else a_unwind h aft z A (wemit (ONativeRet fid z) (World p []))) = x /\
    sok h t0 s x /\ incl (map af_id (as_fr x)) (map af_id A).
Proof.
  intros h t0 b fid aft fr ig A z p W Eh Ep O Nd R. set (w := wemit (ONativeRet fid z) (World p [])).
  set (b1 := bemit b (ONativeRet fid z)). destruct ig.
  - inversion R as [| |x1 x2 c cs x3 R1 Sc Ov Vn X1 X2 X3 |]; subst.
    assert (E0 : env0 h t0 w b1 APlain fr cs A). { constructor; auto; cbn; rewrite Eh; reflexivity. }
    assert (Es : stk (b_cs b1) = c :: cs) by (change (b_cs b1) with (b_cs b); congruence).
    destruct (end_context_spec _ _ _ _ _ _ _ _ _ E0 Es) as (b2 & Eb & [Y1 Y2 Y3 Y4 Y5] & S1 & V1).
    exists (State b2 fr), (AState A (close (depth A) w)). split; [|split; [reflexivity|split; [|apply incl_refl]]].
    + assert (Er : reset_ignore b1 = Some b2).
      { unfold reset_ignore. rewrite (stk_front (b_cs b1) O), Es. cbn [hd_error]. rewrite Sc. exact Eb. }
      destruct fr; cbn [unwind]; rewrite Er; reflexivity.
    + rewrite (rel_depth _ _ _ _ _ _ R1). constructor; cbn [s_b s_fr as_fr as_w]; auto. rewrite S1. exact Y4.
  - inversion R as [|x1 x2 x3 x4 x5 R1 Nr X1 X2 X3 X4| |]; subst.
    assert (E0 : env0 h t0 w b1 aft fr (stk (b_cs b1)) A).
    { constructor; auto; [cbn; rewrite Eh; reflexivity|]. rewrite Nr. exact R1. }
    destruct (unwind_spec h t0 fr w b1 aft z _ A W E0 eq_refl) as (s & Es & So).
    exists s, (a_unwind h aft z A w). repeat split; auto; try apply So. apply unwind_ids.
Qed.

(** Returning from a handler or the original function *)
Lemma return_hook : forall h t0 b fid aft hi fr a A z, WH h -> b_h b = set_tr h t0 -> cs_ok (b_cs b) ->
  NoDup (ids (Frame fid aft (Some hi) :: fr)) ->
  rel h (b_vars b) false (Frame fid aft (Some hi) :: fr) (stk (b_cs b)) (AFrame fid aft false (Some a) :: A) ->
  let s := State b (Frame fid aft (Some hi) :: fr) in
  let w := World (b_pend b) [] in
  exists s' ao, do_return s z = Ok s' /\
    (match a_run a with
     | Some _ => a_done h fid (depth A) a z w
     | None => a_begin_post h fid (depth A) (a_with_v (vs_oret z (a_v a)) a) None (wemit (OOrigRet fid z) w)
     end) = ao /\ sok h t0 s' (a_resume h ao fid aft A).
Proof.
  intros h t0 b fid aft hi fr a A z W Eh O Nd R s w. cbn [ids map f_id] in Nd. inversion Nd as [|x y Nf Nd']; subst.
  inversion R as [| | |su x1 x2 x3 x4 c cs x7 x8 R1 F X1 X2 X3 X4]; subst. rewrite (rel_depth _ _ _ _ _ _ R1).
  pose proof (fo_core _ _ _ _ _ _ _ _ _ F) as Fc.
  destruct (fo_vals _ _ _ _ _ _ _ _ _ F eq_refl) as [Ov Or].
  unfold do_return, s. cbn [s_fr f_hook f_id f_after s_b]. rewrite (fo_run _ _ _ _ _ _ _ _ _ F), (fo_phase _ _ _ _ _ _ _ _ _ F).
  destruct (a_run a) as [[vp nid]|] eqn:Er; cbn [option_map snd].
  - assert (E : env h t0 w b fid aft fr c cs A). { constructor; [|congruence|exact Nf]. constructor; auto. }
    assert (Np : a_phase a <> POrig). { intros C. pose proof (proj2 (fo_wf _ _ _ _ _ _ _ _ _ F) C). congruence. }
    pose proof (handler_done_spec h t0 w b fid aft fr c cs A hi a vp nid z W E (fo_stat _ _ _ _ _ _ _ _ _ F) Fc
      (fo_phase _ _ _ _ _ _ _ _ _ F) Er Np (fo_co _ _ _ _ _ _ _ _ _ F) (fo_loop _ _ _ _ _ _ _ _ _ F) (fun _ => conj Ov Or)) as Out.
    destruct (resume_spec h t0 fid aft fr cs A _ _ W Out) as (s' & Es & So). rewrite Es. eexists; eexists. split; [reflexivity|]. split; [reflexivity|exact So].
  - pose proof (proj1 (fo_wf _ _ _ _ _ _ _ _ _ F) Er) as Ph. rewrite Ph.
    assert (E : env h t0 (wemit (OOrigRet fid z) w) (bemit b (OOrigRet fid z)) fid aft fr c cs A).
    { constructor; [|change (b_cs (bemit b (OOrigRet fid z))) with (b_cs b); congruence|exact Nf]. constructor; auto. cbn. rewrite Eh. reflexivity. }
    assert (Co : a_callorig a = true). { apply (fo_co _ _ _ _ _ _ _ _ _ F). congruence. }
    assert (Out : out_ok h t0 fid aft fr cs A (begin_post (upd_vars (bemit b (OOrigRet fid z)) fid (vs_oret z)) fid hi)
       (a_begin_post h fid (length cs) (a_with_v (vs_oret z (a_v a)) a) None (wemit (OOrigRet fid z) w))).
    { apply (after_orig_spec h t0 _ _ fid aft fr c cs A hi a z z None W E (fo_stat _ _ _ _ _ _ _ _ _ F) Fc); auto.
      intros Al. pose proof (fc_live _ _ _ _ _ _ Fc) as Lv. rewrite Al in Lv. destruct Lv as (v & L). exists v. split; [exact L|].
      pose proof (fo_loop _ _ _ _ _ _ _ _ _ F Al v L) as Lp. unfold loop_ok in Lp. rewrite Ph, Er in Lp. unfold pos_ok. auto. }
    destruct (resume_spec h t0 fid aft fr cs A _ _ W Out) as (s' & Es & So). rewrite Es. eexists; eexists. split; [reflexivity|]. split; [reflexivity|exact So].
Qed.

(** A handler says what its result is. *)
Lemma set_res_spec : forall h t0 b fid aft hi fr a A m vp nid, b_h b = set_tr h t0 -> cs_ok (b_cs b) ->
  NoDup (ids (Frame fid aft (Some hi) :: fr)) -> a_run a = Some (vp, nid) ->
  rel h (b_vars b) false (Frame fid aft (Some hi) :: fr) (stk (b_cs b)) (AFrame fid aft false (Some a) :: A) ->
  exists b', set_res b m = Some b' /\
    sok h t0 (State b' (Frame fid aft (Some hi) :: fr))
      (AState (AFrame fid aft false (Some (a_with_v (vs_cur m (a_v a)) a)) :: A) (World (b_pend b) [])).
Proof.
  intros h t0 b fid aft hi fr a A m vp nid Eh O Nd Er R. pose proof Nd as Nd0. cbn [ids map f_id] in Nd. inversion Nd as [|x y Nf Nd']; subst.
  inversion R as [| | |su x1 x2 x3 x4 c cs x7 x8 R1 F X1 X2 X3 X4]; subst.
  pose proof (fo_core _ _ _ _ _ _ _ _ _ F) as Fc. destruct (fc_frame _ _ _ _ _ _ Fc) as [Fr Nov]; [right; congruence|].
  destruct (fc_vars _ _ _ _ _ _ Fc) as (v & Ev & (M1 & M2 & M3)).
  unfold set_res. rewrite (stk_front _ O), <- X3. cbn [hd_error]. rewrite Fr, get_vars_lk, Ev.
  eexists. split; [reflexivity|].
  assert (E0 : env0 h t0 (World (b_pend b) []) (upd_vars b fid (vs_cur m)) aft fr cs A).
  { apply env0_own; auto. constructor; auto. }
  assert (Rd : forall q, rd (b_vars (upd_vars b fid (vs_cur m))) q = rd (b_vars b) q).
  { intros q. apply rd_upd. intros; split; reflexivity. }
  destruct E0 as [Y1 Y2 Y3 Y4 Y5]. constructor; cbn [s_b s_fr as_fr as_w]; auto.
  change (b_cs (upd_vars b fid (vs_cur m))) with (b_cs b). rewrite <- X3. constructor; [exact Y4|].
  destruct F as [F1 F2 F3 F4 F5 F6 F7 F8 F9 F10 F11]. constructor; auto.
  - apply (hstat_ext hi a); auto.
  - destruct Fc as [Q1 Q2 Q3 Q4 Q5 Q6 Q7]. constructor; cbn [a_with_v a_alive a_callorig a_run a_v]; auto.
    + exists (vs_cur m v). split; [apply lk_self; exact Ev|]. repeat split; auto.
    + destruct (a_alive a); [|exact Q7]. destruct Q7 as (y & [L1 L2 L3 L4 L5]). exists y. constructor; auto.
  - cbn [a_with_v a_alive]. intros Al y [L1 L2 L3 L4 L5]. assert (L : live h y c a) by (constructor; auto).
    pose proof (F8 Al y L) as Lp. unfold loop_ok, a_with_v in *. cbn [a_phase a_run] in *. destruct (a_phase a), (a_run a) as [[? ?]|]; exact Lp.
  - intros _. destruct (F11 eq_refl) as [Ov Or]. split.
    + apply (vals_keep (b_vars b) _ c _ (a_v a)); auto.
    + intros Ph. apply (vals_keep' (b_vars b) _ c _ (a_v a)); auto.
Qed.

(** An outcome of the machine agrees with one of the abstract machine. *)
Definition opens (e : event) : bool :=
  match e with ECall _ _ _ _ | ESHCall _ _ _ _ | ERecall _ _ _ _ _ _ => true | _ => false end.
Definition agrees (m0 : Z -> Z) (s : state) (A : list aframe) (e : event) : Prop :=
  match step s e with
  | Ok s' => exists x new, astep (s_h s) (s_h s') A (b_pend (s_b s)) e = Some x /\ CInv m0 s' (as_fr x) /\
               b_pend (s_b s') = w_pend (as_w x) /\ since s s' new /\
               (if runs e then new = w_obs (as_w x) else Forall api_obs new /\ w_obs (as_w x) = []) /\
               (if opens e then S (h_nxt (s_h s)) else h_nxt (s_h s)) <= h_nxt (s_h s')
  | Illegal => forall h', astep (s_h s) h' A (b_pend (s_b s)) e = None
  | UB => False
  end.

Lemma agrees_run : forall m0 s A e s' x n, CInv m0 s A -> runs e = true -> step s e = Ok s' ->
  (if opens e then S (h_nxt (s_h s)) else h_nxt (s_h s)) <= n -> sok (set_nxt (s_h s) n) (h_tr (s_h s)) s' x ->
  (forall g, In g (map af_id (as_fr x)) -> g < n) ->
  astep (s_h s) (s_h s') A (b_pend (s_b s)) e = Some x -> agrees m0 s A e.
Proof.
  intros m0 s A e s' x n C Hr E Hn So Hi Ea. unfold agrees. rewrite E, Hr.
  assert (Hn' : h_nxt (s_h s) <= n) by (destruct (opens e); lia).
  destruct (run_inv m0 s A e s' x n C Hr E Hn' So Hi) as (C' & P' & N'). exists x, (w_obs (as_w x)). repeat (split; [assumption || reflexivity|]).
  change (s_h s') with (b_h (s_b s')). rewrite (so_h _ _ _ _ So). exact Hn.
Qed.

Lemma call_refines : forall m0 s A e, CInv m0 s A -> allowed (s_h s) A e ->
  match e with ECall _ _ _ _ | ESHCall _ _ _ _ => True | _ => False end -> agrees m0 s A e.
Proof.
  intros m0 s A e C Al He. pose proof (CInv_pre m0 s A C) as Pc. pose proof (ids_fresh m0 s A C) as Fi.
  assert (Nx : S (h_nxt (s_h s)) <= S (h_nxt (s_h s))) by lia.
  destruct s as [b fr]. cbn [s_b s_fr] in Pc. change (s_h (State b fr)) with (b_h b) in *.
  destruct e; try contradiction; cbn [allowed] in Al; destruct Al as [_ Al].
  - destruct (h_mem (b_h b) (slot_of (b_h b) this vo idx)) as [c|pf] eqn:Em.
    + destruct (do_call_native m0 b fr _ A this vo idx param APlain c Pc eq_refl eq_refl Em) as (s' & Es & So).
      eapply (agrees_run m0 (State b fr) A (ECall this vo idx param) s' _ (S (h_nxt (b_h b))) C eq_refl); [cbn [step]; rewrite Es; reflexivity|exact Nx|exact So|exact Fi|].
      cbn [astep]. change (s_h (State b fr)) with (b_h b). rewrite Em. reflexivity.
    + pose proof (rel_take_ign _ _ _ _ _ _ (pc_rel _ _ _ _ _ Pc) eq_refl) as T.
      destruct (take_ign A) as [A1|] eqn:Et.
      * destruct T as (c & cs1 & Ec & Sc & Ov & R1).
        assert (Pc1 : pre_call m0 b fr cs1 A1) by (destruct Pc; constructor; auto).
        destruct (do_call_ignored m0 b fr c cs1 A1 this vo idx param APlain pf Pc1 Ec eq_refl Sc Ov Al Em) as (s' & Es & So).
        eapply (agrees_run m0 (State b fr) A (ECall this vo idx param) s' _ (S (h_nxt (b_h b))) C eq_refl); [cbn [step]; rewrite Es; reflexivity|exact Nx|exact So| |].
        -- intros g Hg. apply Fi. rewrite <- (take_ign_ids _ _ Et). apply resume_ids in Hg. exact Hg.
        -- cbn [astep]. change (s_h (State b fr)) with (b_h b). rewrite Em, Et. reflexivity.
      * destruct (do_call_hooked m0 b fr _ A this vo idx param APlain pf Pc eq_refl eq_refl Et Al Em) as (s' & Es & So).
        eapply (agrees_run m0 (State b fr) A (ECall this vo idx param) s' _ (S (h_nxt (b_h b))) C eq_refl); [cbn [step]; rewrite Es; reflexivity|exact Nx|exact So| |].
        -- intros g Hg. apply Fi. apply resume_ids in Hg. exact Hg.
        -- cbn [astep]. change (s_h (State b fr)) with (b_h b). rewrite Em, Et. reflexivity.
  - destruct (h_mem (b_h b) (slot_of (b_h b) this vo idx)) as [c|pf] eqn:Em.
    + destruct (do_call_sh_native m0 b fr _ A this vo idx param c Pc eq_refl Em) as (s' & Es & So).
      eapply (agrees_run m0 (State b fr) A (ESHCall this vo idx param) s' _ (S (h_nxt (b_h b))) C eq_refl); [cbn [step s_b s_fr]; rewrite Es; reflexivity|exact Nx|exact So|exact Fi|].
      cbn [astep]. change (s_h (State b fr)) with (b_h b). rewrite Em. reflexivity.
    + set (b1 := set_ignore b). destruct (stk_push (b_cs b) (Ctx SIgnore INull None None None 0 None None None false None) (pc_cs _ _ _ _ _ Pc) eq_refl) as [O S].
      assert (Pc1 : pre_call m0 b1 fr (stk (b_cs b)) A) by (destruct Pc; constructor; auto).
      destruct (do_call_ignored m0 b1 fr _ (stk (b_cs b)) A this vo idx param AReset pf Pc1 S eq_refl eq_refl eq_refl Al Em) as (s' & Es & So).
      eapply (agrees_run m0 (State b fr) A (ESHCall this vo idx param) s' _ (Datatypes.S (h_nxt (b_h b))) C eq_refl); [cbn [step s_b s_fr]; fold b1; rewrite Es; reflexivity|exact Nx|exact So| |].
      * intros g Hg. apply Fi. apply resume_ids in Hg. exact Hg.
      * cbn [astep]. change (s_h (State b fr)) with (b_h b). rewrite Em. reflexivity.
Qed.

Lemma handler_refines : forall m0 s A e, CInv m0 s A -> allowed (s_h s) A e ->
  match e with ESetRes _ | ERecall _ _ _ _ _ _ => True | _ => False end -> agrees m0 s A e.
Proof.
  intros m0 s A e C Al He. pose proof (CInv_pre m0 s A C) as Pc. pose proof (ids_fresh m0 s A C) as Fi.
  pose proof (wf_h _ _ (g_wf _ _ (ci_good _ _ _ C))) as W. change (c_h (s_k s)) with (s_h s) in W.
  destruct s as [b fr]. cbn [s_b s_fr] in Pc. change (s_h (State b fr)) with (b_h b) in *.
  destruct Pc as [P1 P2 P3 P4 P5 P6 P7 P8].
  assert (X : (in_handler (State b fr) = None /\ match A with f :: _ => match af_hook f with Some a => a_run a = None | None => True end | [] => True end) \/
    exists fid aft hi fr' a A' vp nid, fr = Frame fid aft (Some hi) :: fr' /\ A = AFrame fid aft false (Some a) :: A' /\ a_run a = Some (vp, nid) /\
      in_handler (State b fr) = Some (fid, nid)).
  { unfold in_handler. cbn [s_fr]. inversion P6 as [|? ? ? ? ? R Nr|? ? ? ? ? R Sc Ov Vn|su fid aft hi fr' c cs a A' R F]; subst; cbn [f_hook f_id af_hook]; auto.
    rewrite (fo_run _ _ _ _ _ _ _ _ _ F). destruct (a_run a) as [[vp nid]|] eqn:Er; cbn [option_map snd]; [right|left; auto].
    exists fid, aft, hi, fr', a, A', vp, nid. auto. }
  destruct X as [[X1 X2]|(fid & aft & hi & fr' & a & A' & vp & nid & -> & -> & Er & X1)].
  { destruct e; try contradiction; unfold agrees; cbn [step]; rewrite X1; intros h'; cbn [astep]; destruct A as [|f A]; auto;
    destruct (af_hook f) as [a|]; auto; rewrite X2; reflexivity. }
  destruct e; try contradiction.
  - destruct (set_res_spec (b_h b) (h_tr (b_h b)) b fid aft hi fr' a A' m vp nid (eq_sym (set_tr_self _)) P5 P7 Er P6) as (b' & Es & So).
    rewrite <- (set_nxt_self (b_h b)) in So at 1.
    eapply (agrees_run m0 (State b (Frame fid aft (Some hi) :: fr')) _ (ESetRes m) (State b' (Frame fid aft (Some hi) :: fr')) _ (h_nxt (b_h b)) C eq_refl).
    + cbn [step]. rewrite X1. cbn [s_b s_fr]. rewrite Es. reflexivity.
    + apply le_n.
    + exact So.
    + cbn [as_fr]. intros g Hg. apply P8. rewrite (rel_ids _ _ _ _ _ _ P6). exact Hg.
    + cbn [astep af_hook]. rewrite Er. reflexivity.
  - cbn [allowed af_hook] in Al. destruct Al as (Al1 & Al2 & Al3 & Al4).
    inversion P6 as [| | |su x1 x2 x3 x4 c cs x7 x8 R F Y1 Y2 Y3 Y4]. subst.
    assert (Nd : cx_state c <> SDead).
    { pose proof (fc_live _ _ _ _ _ _ (fo_core _ _ _ _ _ _ _ _ _ F)) as Lv. rewrite Al1 in Lv. destruct Lv as (v & L).
      pose proof (fo_loop _ _ _ _ _ _ _ _ _ F Al1 v L) as Lp. unfold loop_ok in Lp.
      destruct (a_phase a), (a_run a) as [[[|] n]|]; cbn [run_state] in Lp; try contradiction; first [congruence|destruct Lp as [Lp _]; congruence]. }
    assert (Pc : pre_call m0 b (Frame fid aft (Some hi) :: fr') (c :: cs) (AFrame fid aft false (Some a) :: A')).
    { rewrite Y3. constructor; auto. }
    destruct (recall_spec m0 b fid aft hi fr' c cs A' a vp nid res val offs vo idx param Pc (eq_sym Y3) Er Nd Al2 Al3 Al4) as (s' & Es & So).
    eapply (agrees_run m0 (State b (Frame fid aft (Some hi) :: fr')) _ (ERecall res val offs vo idx param) s' _ (S (h_nxt (b_h b))) C eq_refl).
    + cbn [step]. rewrite X1. cbn [s_b s_fr]. rewrite Es. reflexivity.
    + apply le_n.
    + exact So.
    + intros g Hg. apply Fi. apply resume_ids in Hg. exact Hg.
    + cbn [astep af_hook]. rewrite Er. reflexivity.
Qed.

Lemma return_refines : forall m0 s A z, CInv m0 s A -> agrees m0 s A (EReturn z).
Proof.
  intros m0 s A z C. pose proof (CInv_pre m0 s A C) as Pc.
  destruct s as [b fr]. cbn [s_b s_fr] in Pc. destruct Pc as [P1 P2 P3 P4 P5 P6 P7 P8].
  destruct fr as [|[fid aft hk] fr].
  { inversion P6; subst. unfold agrees. cbn. reflexivity. }
  pose proof (rel_ids _ _ _ _ _ _ P6) as Ei.
  destruct hk as [hi|].
  - assert (X : exists a A', A = AFrame fid aft false (Some a) :: A') by (inversion P6; subst; eauto). destruct X as (a & A' & ->).
    destruct (return_hook (b_h b) (h_tr (b_h b)) b fid aft hi fr a A' z P2 (eq_sym (set_tr_self _)) P5 P7 P6) as (s' & ao & Es & Ea & So).
    rewrite <- (set_nxt_self (b_h b)) in So at 1.
    eapply (agrees_run m0 (State b (Frame fid aft (Some hi) :: fr)) _ (EReturn z) s' _ (h_nxt (b_h b)) C eq_refl Es (le_n _) So).
    + intros g Hg. apply P8. rewrite Ei. apply resume_ids in Hg. exact Hg.
    + cbn [astep af_hook af_id af_after]. change (s_h (State b (Frame fid aft (Some hi) :: fr))) with (b_h b). rewrite <- Ea. destruct (a_run a); reflexivity.
  - assert (X : exists ig A', A = AFrame fid aft ig None :: A') by (inversion P6; subst; eauto). destruct X as (ig & A' & ->).
    assert (Nd : NoDup (ids fr)) by (cbn [ids map] in P7; inversion P7; assumption).
    destruct (return_native (b_h b) (h_tr (b_h b)) b fid aft fr ig A' z (b_pend b) P2 (eq_sym (set_tr_self _)) eq_refl P5 Nd P6) as (s' & x & Es & Ea & So & Inc).
    rewrite <- (set_nxt_self (b_h b)) in So at 1.
    eapply (agrees_run m0 (State b (Frame fid aft None :: fr)) _ (EReturn z) s' x (h_nxt (b_h b)) C eq_refl).
    + cbn [step do_return s_fr f_hook f_id f_after s_b]. rewrite Es. reflexivity.
    + apply le_n.
    + exact So.
    + intros g Hg. apply P8. rewrite Ei. right. apply Inc. exact Hg.
    + cbn [astep af_hook af_id af_after af_ign]. rewrite <- Ea. destruct ig; destruct aft; reflexivity.
Qed.

(** ** The API *)
Lemma removed_more : forall h h' D, removed h h' D -> (WS h -> WS h') /\ tr_more api_obs h h' /\ h_nxt h <= h_nxt h'.
Proof. intros h h' D R. split; [apply (ms_ws _ _ (rv_step _ _ _ R))|split; [apply hook_more, (ms_tr _ _ (rv_step _ _ _ R))|apply (rv_nxt _ _ _ R)]]. Qed.
Lemma tr_more_refl : forall P h h', h_tr h' = h_tr h -> tr_more P h h'.
Proof. intros P h h' E. exists []. auto. Qed.

Lemma api_more : forall m0 s e s' A, Good m0 s -> runs e = false -> api_ok (s_h s) A e -> step s e = Ok s' ->
  (WS (s_h s) -> WS (s_h s')) /\ tr_more api_obs (s_h s) (s_h s') /\ h_nxt (s_h s) <= h_nxt (s_h s').
Proof.
  intros m0 s e s' A G Hr Ok E. destruct G as [W P R D]. pose proof (Build_Good m0 s W P R D) as G.
  destruct e; try discriminate; cbn [step] in E; cbn [api_ok] in Ok.
  - destruct Ok as (O1 & O2 & O3).
    destruct (add_hook_cases m0 s plug mode ifp offs pf handler post G) as [[_ Ea]|[(B1 & B2 & _)|(info & h' & hk & Vp & Ea & _ & _ & _ & _ & Ad & G' & Ws & _)]].
    + rewrite Ea in E. injection E as <-. split; [auto|split; [apply tr_more_refl; reflexivity|apply le_n]].
    + destruct O1; congruence.
    + rewrite Ea in E. injection E as <-. split; [apply Ws; exact O2|split; [apply hook_more, (ad_tr _ _ _ _ _ _ Ad)|]]. pose proof (ad_fresh _ _ _ _ _ _ Ad). cbn [with_k s_h s_b set_k b_h b_k c_h]. lia.
  - destruct (h_pfs (s_h s) pf) as [info|] eqn:Ef.
    + destruct (remove_hook_ok m0 (s_k s) plug ifp offs pf handler post info W P Ef) as (k' & b & D' & Er & W' & Rm & _).
      rewrite Er in E. injection E as <-. apply (removed_more _ _ _ Rm).
    + unfold remove_hook in E. change (c_h (s_k s)) with (s_h s) in E. rewrite Ef in E. injection E as <-. split; [auto|split; [apply tr_more_refl; reflexivity|apply le_n]].
  - destruct (remove_ids_ok m0 [id] (s_k s) W) as (k' & b & Er & W' & Rm & _). cbn [remove_ids] in Er.
    destruct (remove_by_id (s_k s) id) as [[k1 b1]|]; [|discriminate]. injection Er as <- _. injection E as <-. apply (removed_more _ _ _ Rm).
  - injection E as <-. cbn [with_k s_h s_b set_k b_h b_k c_h]. rewrite (set_paused_eq (s_h s) id p (wf_h m0 _ W)). cbn [fst].
    split; [apply WS_same; reflexivity|split; [apply tr_more_refl; reflexivity|apply le_n]].
  - injection E as <-. destruct (pause_plugin_ok m0 (s_k s) plug p W) as [_ (D' & X & _)]. change (c_h (s_k s)) with (s_h s) in X.
    cbn [with_k s_h s_b set_k b_h b_k c_h]. rewrite X. split; [apply WS_same; reflexivity|split; [apply tr_more_refl; reflexivity|apply le_n]].
  - unfold unload_plugin in E. destruct (unload_hooks_ok m0 (s_k s) plug W) as (k' & D' & Eu & W' & Rm & _). rewrite Eu in E.
    destruct (removed_more _ _ _ Rm) as [X1 [(l & X2 & X3) X4]].
    destruct (cs_depth (c_cs k') =? 0); injection E as <-.
    + split; [intros Ws; apply (WS_same (c_h k')); auto|]. split; [|exact X4]. exists (OReady plug listener :: l). split; [exact (f_equal (cons (OReady plug listener)) X2)|].
      constructor; [exact I|exact X3].
    + split; [exact X1|]. split; [exists l; auto|exact X4].
  - unfold remove_hookman_pf in E. destruct (find (man_key plug pf) (h_mans (c_h (s_k s)))) as [m|] eqn:F.
    + assert (Gm : get_man (c_h (s_k s)) (mn_obj m) = Some m).
      { apply get_man_in; [apply (wm_mobj m0 _ (wf_m m0 _ W))|apply (find_some _ _ F)]. }
      destruct (remove_hookman_ok m0 (s_k s) (mn_obj m) m W Gm) as (k' & Er & W' & _ & _ & Rm & _). rewrite Er in E. injection E as <-.
      apply (removed_more _ _ _ Rm).
    + injection E as <-. split; [auto|split; [apply tr_more_refl; reflexivity|apply le_n]].
  - unfold reconfigure in E. destruct (remove_hookman_pf (s_k s) plug pf) as [k1|] eqn:E1; [|discriminate].
    assert (X : (WS (s_h s) -> WS (c_h k1)) /\ tr_more api_obs (s_h s) (c_h k1) /\ h_nxt (s_h s) <= h_nxt (c_h k1)).
    { unfold remove_hookman_pf in E1. destruct (find (man_key plug pf) (h_mans (c_h (s_k s)))) as [m|] eqn:F.
      - assert (Gm : get_man (c_h (s_k s)) (mn_obj m) = Some m).
        { apply get_man_in; [apply (wm_mobj m0 _ (wf_m m0 _ W))|apply (find_some _ _ F)]. }
        destruct (remove_hookman_ok m0 (s_k s) (mn_obj m) m W Gm) as (k' & Er & W' & _ & _ & Rm & _). rewrite Er in E1. injection E1 as <-.
        apply (removed_more _ _ _ Rm).
      - injection E1 as <-. split; [auto|split; [apply tr_more_refl; reflexivity|apply le_n]]. }
    destruct X as [X1 X2]. destruct (h_pfs (c_h k1) pf) as [i|]; injection E as <-; [|split; [exact X1|exact X2]].
    split; [|exact X2]. intros Ws. apply (WS_same (c_h k1)); auto.
  - destruct (complete_shutdown_ok m0 (s_k s) W) as (k' & D' & Er & W' & Rm & _). rewrite Er in E. injection E as <-. apply (removed_more _ _ _ Rm).
  - injection E as <-. split; [apply WS_same; reflexivity|split; [apply tr_more_refl; reflexivity|apply le_n]].
Qed.

Lemma api_frames : forall m0 s A e, CInv m0 s A -> runs e = false -> api_ok (s_h s) A e -> (forall a, Z.odd (m0 a) = false) ->
  exists s', step s e = Ok s' /\ CInv m0 s' (map (refresh (s_h s')) A) /\ length (stk (b_cs (s_b s'))) = length (stk (b_cs (s_b s))).
Proof.
  intros m0 s A e [G Ws Ow Th O R Nd Fr] Hr Ok Ev.
  assert (Nn : ~ null_add s e).
  { destruct e; cbn [null_add]; auto. destruct Ok as ([->|B] & _); intros (C1 & C2 & _); congruence. }
  destruct (api_total m0 s e G Hr Nn) as (s' & E & G' & F' & V'). exists s'. split; [exact E|].
  destruct (api_follows m0 s e s' A G Ow Ev Hr Ok E) as (ok & Fo & Hok).
  destruct (Fo O Th) as (O' & T' & L' & R'). split; [|exact L'].
  constructor; auto.
  - apply (api_more m0 s e s' A G Hr Ok E). exact Ws.
  - apply (step_owned m0 s e s' G E Ow). destruct e; auto.
  - rewrite V', F'. apply R'; auto.
  - rewrite F'. exact Nd.
  - rewrite F'. intros g Hg. specialize (Fr g Hg). destruct (api_more m0 s e s' A G Hr Ok E) as (_ & _ & Nx). lia.
Qed.

Lemma api_refines : forall m0 s A e, CInv m0 s A -> runs e = false -> api_ok (s_h s) A e -> (forall a, Z.odd (m0 a) = false) ->
  agrees m0 s A e.
Proof.
  intros m0 s A e C Hr Ok Ev. destruct (api_frames m0 s A e C Hr Ok Ev) as (s' & E & C' & L').
  destruct (api_more m0 s e s' A (ci_good _ _ _ C) Hr Ok E) as (_ & (l & Nl & Fl) & Nx).
  assert (Op : opens e = false) by (destruct e; auto; discriminate). unfold agrees. rewrite E, Hr, Op.
  assert (Pl : (exists plug li, e = EUnload plug li) \/
    (astep (s_h s) (s_h s') A (b_pend (s_b s)) e = Some (AState (map (refresh (s_h s')) A) (World (b_pend (s_b s)) [])) /\
     b_pend (s_b s') = b_pend (s_b s))).
  { destruct e; try discriminate; cbn [step] in E;
    try (right; split; [reflexivity|]; injection E as <-; reflexivity);
    try (right; split; [reflexivity|]; match type of E with of_opt (match ?x with _ => _ end) = _ => destruct x as [[? ?]|] || destruct x as [?|] end; try discriminate; injection E as <-; reflexivity).
    left. eauto. }
  destruct Pl as [(plug & li & ->)|[Ea Ep]].
  - eexists. exists l. split; [reflexivity|]. cbn [as_fr as_w w_pend w_obs]. split; [exact C'|]. split; [|split; [exact Nl|split; [auto|exact Nx]]].
    cbn [step] in E. unfold unload_plugin in E. destruct (unload_hooks (s_k s) plug) as [k|] eqn:Eu; [|discriminate].
    assert (Ec : b_cs (s_b s') = c_cs k) by (destruct (cs_depth (c_cs k) =? 0); injection E as <-; reflexivity).
    rewrite (rel_depth _ _ _ _ _ _ (ci_rel _ _ _ C)), <- L', (stk_length _ (ci_cs _ _ _ C')), Ec.
    destruct (cs_depth (c_cs k) =? 0); injection E as <-; reflexivity.
  - eexists. exists l. split; [exact Ea|]. cbn [as_fr as_w w_pend w_obs]. auto 10.
Qed.

(** ** The theorem *)
Theorem step_refines : forall m0 s A e, (forall a, Z.odd (m0 a) = false) -> CInv m0 s A -> allowed (s_h s) A e -> agrees m0 s A e.
Proof.
  intros m0 s A e Ev C Al. destruct (runs e) eqn:Hr.
  - destruct e; try discriminate.
    + apply call_refines; auto.
    + apply call_refines; auto.
    + apply return_refines; auto.
    + apply handler_refines; auto.
    + apply handler_refines; auto.
  - apply api_refines; auto. destruct e; try discriminate; exact Al.
Qed.

(** Executions of both machines together, in which the rules are kept *)
Inductive tracks : state -> list aframe -> list event -> state -> list aframe -> Prop :=
| tr_nil : forall s A, tracks s A [] s A
| tr_step : forall s A e s1 x l s' A', allowed (s_h s) A e -> step s e = Ok s1 ->
    astep (s_h s) (s_h s1) A (b_pend (s_b s)) e = Some x -> tracks s1 (as_fr x) l s' A' -> tracks s A (e :: l) s' A'.

Lemma tracks_run : forall s A l s' A', tracks s A l s' A' -> run s l = Ok s'.
Proof. intros s A l s' A' T. induction T; [reflexivity|]. cbn [run]. rewrite H0. exact IHT. Qed.

Theorem tracks_inv : forall m0 s A l s' A', (forall a, Z.odd (m0 a) = false) -> CInv m0 s A -> tracks s A l s' A' -> CInv m0 s' A'.
Proof.
  intros m0 s A l s' A' Ev C T. induction T as [|s A e s1 x l s' A' Al E Ea T IH]; [exact C|]. apply IH.
  pose proof (step_refines m0 s A e Ev C Al) as Ag. unfold agrees in Ag. rewrite E in Ag. destruct Ag as (x' & new & Ea' & C' & _).
  congruence.
Qed.
