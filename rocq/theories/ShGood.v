(** The invariants of all reachable states, and what each API event does. *)
From Coq Require Import List Bool Arith ZArith Lia Sorted Permutation.
From Verif Require Import ProtoModel ProtoSpec ProtoProofs ShModel ShRun ShLists ShInv ShMan ShHooks ShAdd ShRem ShApi ShUnload ShHist.
Import ListNotations.
Local Open Scope nat_scope.

Record Good (m0 : Z -> Z) (s : state) : Prop := {
  g_wf : WF m0 (s_k s); g_pf : pf_wf (s_h s); g_wr : WR (s_h s); g_wd : WD (s_h s) }.

Lemma Good_init : forall pfs mem vt, (forall f i, pfs f = Some i -> proto_wf (pf_proto i)) -> Good mem (init pfs mem vt).
Proof.
  intros pfs mem vt P. constructor.
  - constructor.
    + constructor; cbn; try (intros; contradiction); try constructor; try (intros; discriminate); auto.
    + constructor; cbn; try (intros; contradiction); try constructor.
      * intros s a p k (v & i & [] & _).
      * intros id e Q. unfold query_hook in Q. cbn in Q. destruct (id - 1 <? 0)%Z; [discriminate|]. destruct (Z.to_nat (id - 1)); discriminate.
      * intros id e id' e' Q. unfold query_hook in Q. cbn in Q. destruct (id - 1 <? 0)%Z; [discriminate|]. destruct (Z.to_nat (id - 1)); discriminate.
      * intros [].
      * intros (id & e & Q & _). unfold query_hook in Q. cbn in Q. destruct (id - 1 <? 0)%Z; [discriminate|]. destruct (Z.to_nat (id - 1)); discriminate.
    + intros v [].
    + constructor; cbn; try constructor; try (intros; contradiction); tauto.
  - split; [exact P|]. intros id e Q. unfold query_hook in Q. cbn in Q. destruct (id - 1 <? 0)%Z; [discriminate|].
    destruct (Z.to_nat (id - 1)); discriminate.
  - split; [intros o; reflexivity|]. intros o t1 t2 E. symmetry in E. apply app_eq_nil in E. destruct E as [_ ->]. cbn. lia.
  - split; [constructor|]. intros n [].
Qed.

(** Trace effects of running code *)
Lemma run_regs : forall h l, Forall (run_obs h) l -> (forall o, regs o l = 0 /\ unregs o l = 0) /\ deleted l = [].
Proof.
  intros h l F. induction F as [|x l Hx F [IH1 IH2]]; [auto|]. split.
  - intros o. destruct (IH1 o). destruct x; cbn [regs unregs]; auto; contradiction.
  - destruct x; cbn [deleted]; auto; contradiction.
Qed.

Lemma Good_rstep : forall m0 s s', rstep (s_b s) (s_b s') -> Good m0 s -> Good m0 s'.
Proof.
  intros m0 s s' R [[M H N T] [P1 P2] WR0 WD0]. destruct R as [R1 R2 R3 R4 R5 R6 R7 R8 R9 R10 (l & R11 & R12) _].
  fold (s_h s) in *. fold (s_h s') in *. destruct (run_regs _ _ R12) as [A1 A2]. constructor.
  - constructor.
    + apply (WM_ext_mu m0 (s_h s) (s_h s')); auto. congruence.
    + apply (WH_ext (s_h s) (s_h s')); auto. congruence.
    + intros v Hv. apply (N v). unfold s_h, s_k, b_h in *. rewrite R4 in Hv. exact Hv.
    + apply R10. exact T.
  - split.
    + intros f i. rewrite R1. apply P1.
    + intros id e. rewrite R5. apply P2.
  - apply (WR_same (s_h s)); auto. exists l. auto.
  - apply (WD_same (s_h s)); auto. exists l. auto.
Qed.

Lemma Good_ready : forall m0 s p l, Good m0 s -> Good m0 (State (bemit (s_b s) (OReady p l)) (s_fr s)).
Proof.
  intros m0 s p l [W P R D]. apply (Good_rstep m0 (State (set_pend (s_b s) (Pend p l true :: b_pend (s_b s))) (s_fr s))); [|constructor; auto].
  constructor; auto.
  - intros T. apply (WT_emit (s_h s)). exact T.
  - exists [OReady p l]. split; [reflexivity|]. constructor; [exact I|constructor].
  - intros q m. unfold readies. change (count (is_ready q m) ([OReady p l] ++ h_tr (b_h (s_b s))) + count (is_pend q m) (b_pend (s_b s)) =
      count (is_ready q m) (h_tr (b_h (s_b s))) + count (is_pend q m) ([Pend p l true] ++ b_pend (s_b s))).
    assert (X : count (is_ready q m) [OReady p l] = count (is_pend q m) [Pend p l true]).
    { unfold count. cbn [filter]. change (is_pend q m (Pend p l true)) with (is_ready q m (OReady p l)). destruct (is_ready q m _); reflexivity. }
    rewrite !count_app. lia.
Qed.

(** ** API events *)
Lemma pf_wf_removed : forall h h' D, removed h h' D -> pf_wf h -> pf_wf h'.
Proof.
  intros h h' D R [P1 P2]. split.
  - intros f i. rewrite (rv_pfs _ _ _ R). apply P1.
  - intros id e. rewrite (rv_query _ _ _ R). destruct (D id); [discriminate|apply P2].
Qed.
Lemma Good_removed : forall m0 s k' D, Good m0 s -> WF m0 k' -> removed (s_h s) (c_h k') D -> Good m0 (with_k s k').
Proof.
  intros m0 s k' D [W P R Dl] W' Rm. pose proof (rv_step _ _ _ Rm) as [_ S2 S3 _]. constructor; cbn.
  - exact W'.
  - apply (pf_wf_removed _ _ _ Rm P).
  - apply S2. exact R.
  - apply S3. exact Dl.
Qed.

Lemma Good_api : forall m0 k s, Good m0 s -> c_h k = s_h s -> c_tasks k = c_tasks (s_k s) -> Good m0 (with_k s k).
Proof.
  intros m0 k s [[M H N T] P R D] E1 E2.
  constructor; [constructor|..]; unfold s_k, s_h, b_h in *; cbn [with_k s_b set_k b_k]; rewrite ?E1, ?E2; auto.
Qed.

Lemma pf_wf_add : forall h h' slot adj post hk info pf, pf_wf h -> h_pfs h pf = Some info -> added h h' slot adj post hk ->
  (exists e, query_hook (h_ids h') (hk_id hk) = Some e /\ en_info e = info) -> pf_wf h'.
Proof.
  intros h h' slot adj post hk info pf [P1 P2] Ef A (e & Q & E). split.
  - intros f i. rewrite (ad_pfs _ _ _ _ _ _ A). apply P1.
  - intros id e' Q'. destruct (Z.eq_dec id (hk_id hk)) as [->|Nx].
    + replace e' with e by congruence. rewrite E. apply (P1 pf). exact Ef.
    + rewrite (ad_other _ _ _ _ _ _ A id Nx) in Q'. apply (P2 id). exact Q'.
Qed.

(** AddHook is refused when the public function reports an error or an old
    version; otherwise it succeeds unless the object is null. *)
Theorem add_hook_cases : forall m0 s plug mode ifp offs pf handler post, Good m0 s ->
  (pf_valid (s_h s) pf = None /\ add_hook (s_h s) plug mode ifp offs pf handler post = Some (s_h s, 0%Z)) \/
  (mode <> ADVP /\ (ifp + offs)%Z = 0%Z /\ pf_valid (s_h s) pf <> None /\ add_hook (s_h s) plug mode ifp offs pf handler post = None) \/
  (exists info h' hk, pf_valid (s_h s) pf = Some info /\
     add_hook (s_h s) plug mode ifp offs pf handler post = Some (h', hk_id hk) /\
     hk_plug hk = plug /\ hk_offs hk = offs /\ hk_handler hk = handler /\ hk_paused hk = false /\
     added (s_h s) h' (fst (hook_target (s_h s) mode ifp offs info)) (snd (hook_target (s_h s) mode ifp offs info)) post hk /\
     Good m0 (with_k s (Core h' (c_cs (s_k s)) (c_tasks (s_k s)))) /\
     ((forall m, In m (h_mans (s_h s)) -> mn_pf m = pf -> mn_plug m = plug) -> WS (s_h s) -> WS h') /\
     (exists w' mo, In w' (h_vfns h') /\ vf_ptr w' = fst (hook_target (s_h s) mode ifp offs info) /\ In mo (vf_mans w') /\
       man_plug h' mo = Some plug /\ man_pf h' mo = Some pf) /\
     (exists e, query_hook (h_ids h') (hk_id hk) = Some e /\ en_info e = info)).
Proof.
  intros m0 s plug mode ifp offs pf handler post [W P R D]. destruct (pf_valid (s_h s) pf) as [info|] eqn:Ef.
  - destruct (match mode with ADVP => false | _ => Z.eqb (ifp + offs) 0 end) eqn:Em.
    + right. left. assert (mode <> ADVP /\ (ifp + offs)%Z = 0%Z) as [H1 H2].
      { destruct mode; try discriminate; split; try discriminate; apply Z.eqb_eq; exact Em. }
      split; auto. split; auto. split; [discriminate|]. unfold add_hook. rewrite Ef, Em. reflexivity.
    + right. right. destruct (hook_target (s_h s) mode ifp offs info) as [slot adj] eqn:Et. cbn [fst snd].
      destruct (add_hook_spec m0 (s_k s) plug mode ifp offs pf handler post info slot adj W Ef) as
        (h' & hk & E & A1 & A2 & A3 & A4 & A5 & A6 & A7 & A8 & A9 & A10 & A11); [|exact Et|].
      { destruct mode; auto; right; apply Z.eqb_neq; exact Em. }
      exists info, h', hk. rewrite Et. cbn [fst snd]. split; [reflexivity|]. split; [exact E|]. repeat (split; [assumption|]). split; [|auto].
      pose proof (proj1 (pf_valid_some _ _ _) Ef) as [Ef' _].
      constructor; cbn [s_k s_h b_h with_k s_b set_k b_k c_h]; [exact A6| |exact (A7 R)|exact (A8 D)].
      exact (pf_wf_add (s_h s) h' slot adj post hk info pf P Ef' A5 A11).
  - left. split; [reflexivity|]. unfold add_hook. rewrite Ef. reflexivity.
Qed.

Lemma reconfigure_ok : forall m0 s k1 plug pf vo vi k', Good m0 s -> remove_hookman_pf (s_k s) plug pf = Some k1 ->
  Good m0 (with_k s k1) -> reconfigure (s_k s) plug pf vo vi = Some k' -> Good m0 (with_k s k').
Proof.
  intros m0 s k1 plug pf vo vi k' _ E1 [[M H N T] [P1 P2] R D] E. unfold reconfigure in E. rewrite E1 in E.
  cbn in M, H, N, T, P1, P2, R, D.
  destruct (h_pfs (c_h k1) pf) as [i|] eqn:Ei; injection E as <-; [|split; [split|split| |]; assumption].
  constructor; [constructor| | |]; cbn; auto.
  - destruct M. constructor; auto. cbn. intros m Hm. destruct (wm_ver m Hm) as (j & J1 & J2 & J3). unfold zupd.
    destruct (Z.eqb (mn_pf m) pf) eqn:Ez; [|eauto]. apply Z.eqb_eq in Ez. eexists. split; [reflexivity|]. cbn. rewrite Ez in J1.
    replace j with i in * by congruence. auto.
  - apply (WH_ext (c_h k1)); auto.
  - apply (WT_ext (c_h k1)); auto.
  - split; [|exact P2]. cbn. intros f j. unfold zupd. destruct (Z.eqb f pf); [|apply P1]. intros X. injection X as <-. cbn. apply (P1 pf). exact Ei.
Qed.

(** The event is one on which the machine is undefined by itself: adding a hook
    to a null object (sourcehook.cpp 131 reads the vtable pointer). *)
Definition null_add (s : state) (e : event) : Prop :=
  match e with
  | EAddHook _ mode ifp offs pf _ _ => mode <> ADVP /\ (ifp + offs)%Z = 0%Z /\ pf_valid (s_h s) pf <> None
  | _ => False
  end.

(** API events are defined in every state and keep the invariants. *)
Theorem api_total : forall m0 s e, Good m0 s -> runs e = false -> ~ null_add s e ->
  exists s', step s e = Ok s' /\ Good m0 s' /\ s_fr s' = s_fr s /\ b_vars (s_b s') = b_vars (s_b s).
Proof.
  intros m0 s e G Hr Hn. destruct G as [W P R D]. pose proof (Build_Good m0 s W P R D) as G.
  destruct e; try discriminate; cbn [step].
  - destruct (add_hook_cases m0 s plug mode ifp offs pf handler post G) as [[_ E]|[(A & B & C & _)|(info & h' & hk & _ & E & _ & _ & _ & _ & _ & G' & _)]].
    + rewrite E. eexists. split; [reflexivity|]. split; [|auto]. apply Good_api; auto.
    + exfalso. apply Hn. repeat split; assumption.
    + rewrite E. eexists. split; [reflexivity|]. split; [exact G'|auto].
  - destruct (h_pfs (s_h s) pf) as [info|] eqn:Ef.
    + destruct (remove_hook_ok m0 (s_k s) plug ifp offs pf handler post info W P Ef) as (k' & b & D' & E & W' & Rm & _).
      rewrite E. eexists. split; [reflexivity|]. split; [|auto]. apply (Good_removed m0 s k' D'); auto.
    + unfold remove_hook. change (c_h (s_k s)) with (s_h s). rewrite Ef. eexists. split; [reflexivity|]. split; [|auto].
      apply Good_api; auto.
  - destruct (remove_ids_ok m0 [id] (s_k s) W) as (k' & b & E & W' & Rm & _). cbn [remove_ids] in E.
    destruct (remove_by_id (s_k s) id) as [[k1 b1]|]; [|discriminate]. injection E as <- _.
    eexists. split; [reflexivity|]. split; [|auto]. eapply Good_removed; eauto.
  - eexists. split; [reflexivity|]. split; [|auto].
    change (s_h s) with (c_h (s_k s)). rewrite (set_paused_eq (c_h (s_k s)) id p (wf_h m0 _ W)). cbn [fst].
    constructor; cbn; auto. apply (pause_WF m0 (s_k s)). exact W.
  - eexists. split; [reflexivity|]. split; [|auto].
    destruct (pause_plugin_ok m0 (s_k s) plug p W) as [W' (D' & E & _)]. change (s_h s) with (c_h (s_k s)).
    constructor; cbn [s_k s_h b_h with_k s_b set_k b_k c_h]; auto; rewrite E; auto.
  - unfold unload_plugin. destruct (unload_hooks_ok m0 (s_k s) plug W) as (k' & D' & E & W' & Rm & _). rewrite E.
    pose proof (Good_removed m0 s k' D' G W' Rm) as G'.
    destruct (cs_depth (c_cs k') =? 0); eexists; (split; [reflexivity|]); (split; [|auto]).
    + apply (Good_ready m0 (with_k s k')). exact G'.
    + destruct G'. constructor; auto.
  - unfold remove_hookman_pf. destruct (find (man_key plug pf) (h_mans (c_h (s_k s)))) as [m|] eqn:F.
    + assert (Gm : get_man (c_h (s_k s)) (mn_obj m) = Some m).
      { apply get_man_in; [apply (wm_mobj m0 _ (wf_m m0 _ W))|apply (find_some _ _ F)]. }
      destruct (remove_hookman_ok m0 (s_k s) (mn_obj m) m W Gm) as (k' & E & W' & _ & _ & Rm & _). rewrite E.
      eexists. split; [reflexivity|]. split; [|auto]. eapply Good_removed; eauto.
    + eexists. split; [reflexivity|]. split; [|auto]. apply Good_api; auto.
  - assert (X : exists k1, remove_hookman_pf (s_k s) plug pf = Some k1 /\ Good m0 (with_k s k1)).
    { unfold remove_hookman_pf. destruct (find (man_key plug pf) (h_mans (c_h (s_k s)))) as [m|] eqn:F.
      - assert (Gm : get_man (c_h (s_k s)) (mn_obj m) = Some m).
        { apply get_man_in; [apply (wm_mobj m0 _ (wf_m m0 _ W))|apply (find_some _ _ F)]. }
        destruct (remove_hookman_ok m0 (s_k s) (mn_obj m) m W Gm) as (k' & E & W' & _ & _ & Rm & _). exists k'. split; auto.
        eapply Good_removed; eauto.
      - eexists. split; [reflexivity|]. apply Good_api; auto. }
    destruct X as (k1 & E1 & G1). assert (Y : exists k', reconfigure (s_k s) plug pf voffs vidx = Some k').
    { unfold reconfigure. rewrite E1. destruct (h_pfs (c_h k1) pf); eauto. }
    destruct Y as (k' & E). rewrite E. eexists. split; [reflexivity|]. split; [|auto]. eapply reconfigure_ok; eauto.
  - destruct (complete_shutdown_ok m0 (s_k s) W) as (k' & D' & E & W' & Rm & _). rewrite E.
    eexists. split; [reflexivity|]. split; [|auto]. eapply Good_removed; eauto.
  - eexists. split; [reflexivity|]. split; [|auto]. constructor; cbn; auto.
    destruct W as [M H N T]. constructor; cbn; auto.
    + apply (WM_ext_mu m0 (s_h s)); auto.
    + apply (WH_ext (s_h s)); auto.
    + apply (WT_ext (s_h s)); auto.
Qed.

Theorem step_good : forall m0 s e s', Good m0 s -> step s e = Ok s' -> Good m0 s'.
Proof.
  intros m0 s e s' G E. destruct (runs e) eqn:R.
  - apply (Good_rstep m0 s s'); auto. apply (step_runs s e s'); auto.
  - destruct (api_total m0 s e G R) as (s1 & E1 & G1 & _).
    + intros Hn. destruct e; try contradiction. cbn [null_add] in Hn. cbn [step] in E.
      destruct (add_hook_cases m0 s plug mode ifp offs pf handler post G) as [[C _]|[(_ & _ & _ & C)|(info & h' & hk & Ef & C & _)]].
      * destruct Hn as (_ & _ & Hn). contradiction.
      * rewrite C in E. discriminate.
      * destruct Hn as (H1 & H2 & _). revert C. unfold add_hook. rewrite Ef.
        destruct mode; try congruence; rewrite H2; cbn; discriminate.
    + rewrite E1 in E. injection E as <-. exact G1.
Qed.

Theorem run_good : forall m0 l s s', Good m0 s -> run s l = Ok s' -> Good m0 s'.
Proof.
  intros m0 l. induction l as [|e l IH]; intros s s' G E; cbn [run] in E.
  - injection E as <-. exact G.
  - destruct (step s e) as [s1| |] eqn:E1; try discriminate. apply (IH s1); auto. apply (step_good m0 s e); auto.
Qed.
