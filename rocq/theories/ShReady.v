(** Notifying plugins that they may be unloaded. *)
From Coq Require Import List Bool Arith ZArith Lia Sorted.
From Verif Require Import ProtoModel ProtoSpec ProtoProofs ShModel ShRun ShLists ShInv ShMan ShHooks ShAdd ShRem ShApi ShUnload ShHist ShGood ShSpec ShView ShAbs ShFrames ShRel ShCalls ShMoves ShChange ShMgr ShOrder ShOwned ShFollow ShRefine ShTrace ShLoop ShAhead ShExact ShSkip ShRules.
Import ListNotations.
Local Open Scope nat_scope.

(** ** Every request is answered at most once *)
Definition asks (p l : Z) (e : event) : bool := match e with EUnload q m => Z.eqb q p && Z.eqb m l | _ => false end.

Lemma hook_no_ready : forall p l t, Forall hook_obs t -> count (is_ready p l) t = 0.
Proof. intros p l t F. unfold count. induction F as [|o t H F IH]; [reflexivity|]. cbn [filter]. destruct o; try contradiction; exact IH. Qed.
Lemma readies_more : forall p l s k, tr_more hook_obs (s_h s) (c_h k) -> readies p l (s_b (with_k s k)) = readies p l (s_b s).
Proof.
  intros p l s k (t & E & F). unfold readies. change (b_h (s_b (with_k s k))) with (c_h k). rewrite E, count_app, (hook_no_ready p l t F). reflexivity.
Qed.
Theorem step_ready : forall m0 s e s' p l, Good m0 s -> step s e = Ok s' ->
  readies p l (s_b s') = readies p l (s_b s) + (if asks p l e then 1 else 0).
Proof.
  intros m0 s e s' p l G E. destruct (runs e) eqn:Hr.
  { rewrite (rs_ready _ _ (step_runs s e s' Hr E)). destruct e; try discriminate; cbn [asks]; lia. }
  destruct G as [W P R D]. pose proof (Build_Good m0 s W P R D) as G.
  assert (Z0 : forall k D0, removed (s_h s) (c_h k) D0 -> readies p l (s_b (with_k s k)) = readies p l (s_b s) + 0).
  { intros k D0 Rm. rewrite readies_more; [lia|]. apply (ms_tr _ _ (rv_step _ _ _ Rm)). }
  assert (Same : forall s', s_b s' = s_b s -> readies p l (s_b s') = readies p l (s_b s) + 0) by (intros s0 ->; lia).
  assert (Pause : forall h, h_tr h = h_tr (s_h s) -> readies p l (s_b (with_k s (Core h (c_cs (s_k s)) (c_tasks (s_k s))))) = readies p l (s_b s) + 0).
  { intros h X. rewrite readies_more; [lia|]. exists []. split; [exact X|constructor]. }
  destruct e; try discriminate; cbn [step asks] in *.
  - destruct (add_hook_cases m0 s plug mode ifp offs pf handler post G) as [[_ Ea]|[(_ & _ & _ & Ea)|(info & h' & hk & Ef & Ea & _ & _ & _ & _ & A & _)]];
      rewrite Ea in E; try discriminate; injection E as <-.
    + apply Pause. reflexivity.
    + rewrite readies_more; [lia|]. apply (ad_tr _ _ _ _ _ _ A).
  - destruct (h_pfs (s_h s) pf) as [info|] eqn:Ef.
    + destruct (remove_hook_ok m0 (s_k s) plug ifp offs pf handler post info W P Ef) as (k' & b & D' & Er & W' & Rm & _).
      rewrite Er in E. injection E as <-. eapply Z0; eauto.
    + unfold remove_hook in E. change (c_h (s_k s)) with (s_h s) in E. rewrite Ef in E. injection E as <-. apply Same. destruct s as [[] ?]; reflexivity.
  - destruct (remove_ids_ok m0 [id] (s_k s) W) as (k' & b & Er & W' & Rm & _). cbn [remove_ids] in Er.
    destruct (remove_by_id (s_k s) id) as [[k1 b1]|]; [|discriminate]. injection Er as <- _. injection E as <-. eapply Z0; eauto.
  - injection E as <-. apply Pause. rewrite (set_paused_eq (s_h s) id p0 (wf_h m0 _ W)). reflexivity.
  - injection E as <-. destruct (pause_plugin_ok m0 (s_k s) plug p0 W) as [W' (D' & X & _)]. change (c_h (s_k s)) with (s_h s) in X. apply Pause. rewrite X. reflexivity.
  - unfold unload_plugin in E. destruct (unload_hooks_ok m0 (s_k s) plug W) as (k' & D' & Eu & W' & Rm & _). rewrite Eu in E.
    pose proof (Z0 k' D' Rm) as H. set (n := if _ : bool then 1 else 0). rewrite Nat.add_0_r in H.
    destruct (cs_depth (c_cs k') =? 0); injection E as <-; rewrite <- H; unfold readies.
    + change (count (is_ready p l) ([OReady plug listener] ++ h_tr (c_h k')) + count (is_pend p l) (b_pend (s_b s)) =
              count (is_ready p l) (h_tr (c_h k')) + count (is_pend p l) (b_pend (s_b s)) + n).
      rewrite count_app. assert (X : count (is_ready p l) [OReady plug listener] = n) by (unfold count, n; cbn [filter is_ready]; destruct (_ && _); reflexivity). lia.
    + change (count (is_ready p l) (h_tr (c_h k')) + count (is_pend p l) (b_pend (s_b s) ++ [Pend plug listener false]) =
              count (is_ready p l) (h_tr (c_h k')) + count (is_pend p l) (b_pend (s_b s)) + n).
      rewrite count_app. assert (X : count (is_pend p l) [Pend plug listener false] = n).
      { unfold count, n. cbn [filter]. unfold is_pend. cbn [pd_plug pd_listener]. destruct (_ && _); reflexivity. } lia.
  - unfold remove_hookman_pf in E. destruct (find (man_key plug pf) (h_mans (c_h (s_k s)))) as [m|] eqn:F.
    + assert (Gm : get_man (c_h (s_k s)) (mn_obj m) = Some m).
      { apply get_man_in; [apply (wm_mobj m0 _ (wf_m m0 _ W))|apply (find_some _ _ F)]. }
      destruct (remove_hookman_ok m0 (s_k s) (mn_obj m) m W Gm) as (k' & Er & W' & _ & _ & Rm & _). rewrite Er in E. injection E as <-. eapply Z0; eauto.
    + injection E as <-. apply Same. destruct s as [[] ?]; reflexivity.
  - unfold reconfigure in E. destruct (remove_hookman_pf (s_k s) plug pf) as [k1|] eqn:E1; [|discriminate].
    assert (X : tr_more hook_obs (s_h s) (c_h k1)).
    { unfold remove_hookman_pf in E1. destruct (find (man_key plug pf) (h_mans (c_h (s_k s)))) as [m|] eqn:F.
      - assert (Gm : get_man (c_h (s_k s)) (mn_obj m) = Some m).
        { apply get_man_in; [apply (wm_mobj m0 _ (wf_m m0 _ W))|apply (find_some _ _ F)]. }
        destruct (remove_hookman_ok m0 (s_k s) (mn_obj m) m W Gm) as (k' & Er & W' & _ & _ & Rm & _). rewrite Er in E1. injection E1 as <-.
        apply (ms_tr _ _ (rv_step _ _ _ Rm)).
      - injection E1 as <-. apply tr_more_refl. reflexivity. }
    destruct (h_pfs (c_h k1) pf) as [i|]; injection E as <-; rewrite readies_more; (lia || exact X).
  - destruct (complete_shutdown_ok m0 (s_k s) W) as (k' & D' & Er & W' & Rm & _). rewrite Er in E. injection E as <-. eapply Z0; eauto.
  - injection E as <-. apply Pause. reflexivity.
Qed.
Theorem run_ready : forall m0 l s s' p x, Good m0 s -> run s l = Ok s' -> readies p x (s_b s') = readies p x (s_b s) + count (asks p x) l.
Proof.
  intros m0 l. induction l as [|e l IH]; intros s s' p x G E; cbn [run] in E.
  - injection E as <-. unfold count. cbn. lia.
  - destruct (step s e) as [s1| |] eqn:E1; try discriminate. rewrite (IH s1 s' p x); [|eapply step_good; eauto|exact E].
    rewrite (step_ready m0 s e s1 p x G E1). unfold count. cbn [filter]. destruct (asks p x e); cbn [length]; lia.
Qed.

(** ** When notifications are sent *)
Definition any_ready (o : obs) : bool := match o with OReady _ _ => true | _ => false end.
Definition rdy (w : world) : list obs := filter any_ready (w_obs w).
Definition same (w w' : world) : Prop := w_pend w' = w_pend w /\ rdy w' = rdy w.
Definition resolved (w w' : world) : Prop :=
  w_pend w' = fst (resolve_pending (w_pend w)) /\ rdy w' = rev (snd (resolve_pending (w_pend w))) ++ rdy w.
Lemma same_refl : forall w, same w w.
Proof. intros w. split; reflexivity. Qed.
Lemma same_emit : forall o w, any_ready o = false -> same w (wemit o w).
Proof. intros o w H. split; [reflexivity|]. unfold rdy. cbn [wemit w_obs filter]. now rewrite H. Qed.
Lemma same_trans : forall a b c, same a b -> same b c -> same a c.
Proof. intros a b c [A1 A2] [B1 B2]. split; congruence. Qed.
Lemma resolved_same : forall a b c, resolved a b -> same b c -> resolved a c.
Proof. intros a b c [A1 A2] [B1 B2]. split; congruence. Qed.
Lemma same_resolved : forall a b c, same a b -> resolved b c -> resolved a c.
Proof. intros a b c [A1 A2] [B1 B2]. split; congruence. Qed.
Lemma resolve_all : forall l, filter any_ready (snd (resolve_pending l)) = snd (resolve_pending l).
Proof.
  induction l as [|x l IH]; [reflexivity|]. cbn [resolve_pending]. destruct (resolve_pending l) as [r o]. cbn [snd] in IH.
  destruct (pd_deact x); cbn [snd filter any_ready]; [f_equal|]; exact IH.
Qed.
Lemma close_pend : forall d w, if d =? 0 then resolved w (close d w) else same w (close d w).
Proof.
  intros d w. unfold close. destruct (d =? 0); [|apply same_refl]. unfold resolved. pose proof (resolve_all (w_pend w)) as H.
  destruct (resolve_pending (w_pend w)) as [r o]. cbn [fst snd] in *. split; [reflexivity|]. unfold rdy. cbn [w_obs]. rewrite filter_app. f_equal.
  transitivity (rev (filter any_ready o)); [|congruence]. clear. induction o as [|x o IH]; [reflexivity|]. cbn [rev filter]. rewrite filter_app, IH. cbn [filter].
  destruct (any_ready x); cbn [rev]; [reflexivity|apply app_nil_r].
Qed.
Definition out_pend (d : nat) (w : world) (o : aout) : Prop :=
  match o with AStop _ w' => same w w' | AFin _ w' => if d =? 0 then resolved w w' else same w w' end.
Lemma out_same : forall d w w1 o, same w w1 -> out_pend d w1 o -> out_pend d w o.
Proof.
  intros d w w1 [a w'|z w'] S; cbn [out_pend]; [apply same_trans; exact S|]. destruct (d =? 0); [apply same_resolved; exact S|apply same_trans; exact S].
Qed.
Lemma post_pend : forall h F d a from w, out_pend d w (a_post h F d a from w).
Proof.
  intros. unfold a_post. destruct (next h a true from); cbn [a_start out_pend]; [apply same_emit; reflexivity|].
  pose proof (close_pend d w) as C. destruct (d =? 0); [eapply resolved_same; eauto|eapply same_trans; eauto]; apply same_emit; reflexivity.
Qed.
Lemma begin_post_pend : forall h F d a from w, out_pend d w (a_begin_post h F d a from w).
Proof. intros. unfold a_begin_post. eapply out_same; [|apply post_pend]. apply same_emit. reflexivity. Qed.
Lemma pre_pend : forall h F d a from w, out_pend d w (a_pre h F d a from w).
Proof.
  intros. unfold a_pre. destruct (next h a false from); cbn [a_start out_pend]; [apply same_emit; reflexivity|].
  destruct (_ && _); [cbn [out_pend]; apply same_emit; reflexivity|apply begin_post_pend].
Qed.
Lemma done_pend : forall h F d a z w, out_pend d w (a_done h F d a z w).
Proof.
  intros. unfold a_done. destruct (a_run a) as [[vp n]|]; [|cbn [out_pend]; apply same_refl].
  eapply out_same; [|destruct (a_phase a); [apply pre_pend|apply pre_pend|apply post_pend]]. apply same_emit. reflexivity.
Qed.
(** [b]: contexts were in use before *)
Definition settled (b : Prop) (w : world) (x : astate) : Prop :=
  same w (as_w x) /\ (depth (as_fr x) = 0 -> b -> False) \/ depth (as_fr x) = 0 /\ resolved w (as_w x).
Lemma settled_same : forall b w w1 x, same w w1 -> settled b w1 x -> settled b w x.
Proof. intros b w w1 x S [[H1 H2]|[H1 H2]]; [left|right]; split; auto; [eapply same_trans; eauto|eapply same_resolved; eauto]. Qed.
Lemma take_none : forall A, depth A = 0 -> take_ign A = None.
Proof.
  induction A as [|f A IH]; intros D; [reflexivity|]. cbn [depth take_ign] in *. destruct (af_hook f); [lia|]. destruct (af_ign f); [lia|]. rewrite IH by lia. reflexivity.
Qed.
Lemma unwind_zero : forall h A aft z w, depth A = 0 -> a_unwind h aft z A w = AState A w.
Proof.
  intros h A aft z w D. destruct aft; destruct A as [|f A]; cbn [a_unwind]; try reflexivity.
  - unfold a_reset. rewrite take_none by exact D. reflexivity.
  - cbn [depth] in D. destruct (af_hook f); [lia|reflexivity].
Qed.
Lemma reset_pend : forall A w, settled (depth A <> 0) w (a_reset A w).
Proof.
  intros A w. unfold a_reset. destruct (take_ign A) as [r|] eqn:E; cbn [as_fr as_w].
  - pose proof (close_pend (depth r) w) as C. destruct (Nat.eqb_spec (depth r) 0); [right; auto|left; auto].
  - left. split; [apply same_refl|]. cbn [as_fr]. tauto.
Qed.
Lemma unwind_pend : forall h A aft z w, settled (depth A <> 0) w (a_unwind h aft z A w).
Proof.
  intros h A. induction A as [|f A IH]; intros aft z w.
  - rewrite unwind_zero by reflexivity. left. split; [apply same_refl|]. cbn. tauto.
  - destruct aft; cbn [a_unwind].
    + left. split; [apply same_refl|]. cbn [as_fr]. tauto.
    + apply reset_pend.
    + destruct (af_hook f) as [a|] eqn:Eh; [|left; split; [apply same_refl|]; cbn [as_fr]; tauto].
      pose proof (done_pend h (af_id f) (depth A) (a_with_v (vs_cur MSupercede (a_v a)) a) z w) as D.
      destruct (a_done _ _ _ _ _ _) as [a' w'|z' w']; cbn [out_pend as_fr as_w] in *.
      * left. split; [exact D|]. cbn [as_fr depth af_hook]. lia.
      * destruct (Nat.eqb_spec (depth A) 0) as [D0|D0].
        -- rewrite unwind_zero by exact D0. right. auto.
        -- eapply settled_same; [exact D|]. destruct (IH (af_after f) z' w') as [[H1 H2]|H]; [left|right; exact H]. split; auto.
Qed.
Lemma resume_pend : forall h o F aft A w b, out_pend (depth A) w o -> settled b w (a_resume h o F aft A).
Proof.
  intros h o F aft A w b O. destruct o as [a w'|z w']; cbn [a_resume out_pend] in *.
  - left. split; [exact O|]. cbn [as_fr depth af_hook]. lia.
  - destruct (Nat.eqb_spec (depth A) 0) as [D0|D0].
    + rewrite unwind_zero by exact D0. right. auto.
    + eapply settled_same; [exact O|]. destruct (unwind_pend h A aft z w') as [[H1 H2]|H]; [left|right; exact H]. split; auto.
Qed.
Lemma astep_pend : forall h h' A p e x, runs e = true -> astep h h' A p e = Some x -> settled (depth A <> 0) (World p []) x.
Proof.
  intros h h' A p e x Hr E. destruct e; try discriminate; cbn [astep] in E.
  - injection E as <-. destruct (is_hookcode _).
    + destruct (take_ign A) as [A1|]; (eapply settled_same; [|apply resume_pend, pre_pend]; apply same_emit; reflexivity).
    + left. split; [apply same_emit; reflexivity|]. cbn [a_native as_fr depth af_hook af_ign]. tauto.
  - injection E as <-. destruct (is_hookcode _).
    + eapply settled_same; [|apply resume_pend, pre_pend]. apply same_emit. reflexivity.
    + left. split; [apply same_emit; reflexivity|]. cbn [a_native as_fr depth af_hook af_ign]. lia.
  - destruct A as [|f A]; [discriminate|]. destruct (af_hook f) as [a|] eqn:Eh.
    + destruct (a_run a); injection E as <-.
      * apply resume_pend, done_pend.
      * eapply settled_same; [|apply resume_pend, begin_post_pend]. apply same_emit. reflexivity.
    + injection E as <-. set (w1 := wemit _ _). assert (S1 : same (World p []) w1) by (apply same_emit; reflexivity). destruct (af_ign f) eqn:Ei.
      * destruct (af_after f); try (left; split; [exact S1|]; cbn [as_fr]; tauto).
        eapply settled_same; [exact S1|]. pose proof (close_pend (depth A) w1) as C. cbn [as_fr as_w]. destruct (Nat.eqb_spec (depth A) 0); [right|left]; auto.
      * eapply settled_same; [exact S1|]. destruct (unwind_pend h A (af_after f) v w1) as [[H1 H2]|H]; [left|right; exact H]. split; [exact H1|]. cbn [depth]. rewrite Eh, Ei. exact H2.
  - destruct A as [|f A]; [discriminate|]. destruct (af_hook f) as [a|] eqn:Eh; [|discriminate]. destruct (a_run a); [|discriminate]. injection E as <-.
    left. split; [apply same_refl|]. cbn [as_fr depth af_hook]. lia.
  - destruct A as [|f A]; [discriminate|]. destruct (af_hook f) as [a|] eqn:Eh; [|discriminate]. destruct (a_run a) as [[vp n]|]; [|discriminate]. injection E as <-. unfold a_recall.
    eapply settled_same; [|apply resume_pend; destruct (a_phase a); [apply pre_pend|apply pre_pend|apply begin_post_pend]].
    eapply same_trans; apply same_emit; reflexivity.
Qed.

(** What one event does to the requests that wait *)
Lemma in_resolved : forall p l ps, In (OReady p l) (snd (resolve_pending ps)) <-> In (Pend p l true) ps.
Proof.
  intros p l ps. induction ps as [|x ps IH]; [split; auto|]. cbn [resolve_pending]. destruct (resolve_pending ps) as [r o]. cbn [snd] in IH. destruct x as [q m d]. cbn [pd_deact pd_plug pd_listener].
  destruct d; cbn [snd In]; rewrite IH; intuition congruence.
Qed.
Lemma rel_no_hooks : forall h vs su fr cs A, rel h vs su fr cs A -> depth A = 0 -> forall f, In f fr -> f_hook f = None.
Proof.
  intros h vs su fr cs A R. induction R; intros D f I'; cbn [depth af_hook af_ign] in D; try lia; [contradiction|].
  destruct I' as [<-|I']; [reflexivity|]. apply IHR; [lia|exact I'].
Qed.
Lemma cinv_depth : forall m0 s A, CInv m0 s A -> depth A = cs_depth (b_cs (s_b s)).
Proof. intros m0 s A C. rewrite (rel_depth _ _ _ _ _ _ (ci_rel _ _ _ C)). apply stk_length. exact (ci_cs _ _ _ C). Qed.

(** The three cases: nothing is sent and nothing else is to be sent; a request is
    made; the stack of contexts has become empty. *)
Definition pend_cases (s : state) (e : event) (s' : state) (new : list obs) : Prop :=
  (b_pend (s_b s') = b_pend (s_b s) /\ filter any_ready new = [] /\ (forall p l, e <> EUnload p l) /\
     (cs_depth (b_cs (s_b s)) <> 0 -> cs_depth (b_cs (s_b s')) <> 0)) \/
  (exists p l, e = EUnload p l /\ cs_depth (b_cs (s_b s')) = cs_depth (b_cs (s_b s)) /\
     if cs_depth (b_cs (s_b s)) =? 0
     then b_pend (s_b s') = b_pend (s_b s) /\ filter any_ready new = [OReady p l]
     else b_pend (s_b s') = b_pend (s_b s) ++ [Pend p l false] /\ filter any_ready new = []) \/
  (runs e = true /\ cs_depth (b_cs (s_b s')) = 0 /\ (forall f, In f (s_fr s') -> f_hook f = None) /\
     b_pend (s_b s') = fst (resolve_pending (b_pend (s_b s))) /\ filter any_ready new = rev (snd (resolve_pending (b_pend (s_b s))))).
Lemma depth_refresh : forall h A, depth (map (refresh h) A) = depth A.
Proof. intros h A. induction A as [|f A IH]; [reflexivity|]. cbn [map depth refresh af_hook af_ign]. rewrite IH. destruct (af_hook f); reflexivity. Qed.
Lemma no_filter : forall new, (forall p l, count (is_ready p l) new = 0) -> filter any_ready new = [].
Proof.
  induction new as [|o new IH]; intros H; [reflexivity|]. cbn [filter]. destruct o; cbn [any_ready]; try (apply IH; intros p l; specialize (H p l); unfold count in *; cbn [filter is_ready] in H; exact H).
  specialize (H plug listener). unfold count in H. cbn [filter is_ready] in H. rewrite !Z.eqb_refl in H. discriminate.
Qed.
Lemma one_filter : forall q m new, (forall p l, count (is_ready p l) new = if Z.eqb q p && Z.eqb m l then 1 else 0) -> filter any_ready new = [OReady q m].
Proof.
  intros q m. induction new as [|o new IH]; intros H; [specialize (H q m); rewrite !Z.eqb_refl in H; discriminate|].
  cbn [filter]. destruct o; cbn [any_ready]; try (apply IH; intros p l; specialize (H p l); unfold count in *; cbn [filter is_ready] in H; exact H).
  pose proof (H plug listener) as H0. unfold count in H0. cbn [filter is_ready] in H0. rewrite !Z.eqb_refl in H0. cbn [andb length] in H0.
  destruct (Z.eqb_spec q plug) as [->|]; [|discriminate]. destruct (Z.eqb_spec m listener) as [->|]; [|discriminate]. f_equal. apply no_filter. intros p l. specialize (H p l). unfold count in *. cbn [filter is_ready] in H.
  destruct (_ && _); cbn [length] in *; lia.
Qed.
Theorem step_pend : forall m0 s A e s' new, (forall a, Z.odd (m0 a) = false) -> LInv m0 s A -> allowed (s_h s) A e -> step s e = Ok s' ->
  since s s' new -> pend_cases s e s' new.
Proof.
  intros m0 s A e s' new Ev L Al E Sn. destruct (step_loop m0 s A e s' Ev L Al E) as (x & new' & Ea & L' & Sn' & Ep & Hn & Hnn & _).
  assert (new' = new). { unfold since in *. rewrite Sn in Sn'. symmetry. eapply app_inv_tail. exact Sn'. } subst new'.
  pose proof (cinv_depth _ _ _ (li_c _ _ _ L)) as D0. pose proof (cinv_depth _ _ _ (li_c _ _ _ L')) as D1.
  destruct (runs e) eqn:Hr.
  - specialize (Hn eq_refl). unfold pend_cases. rewrite <- D0, <- D1, Ep, Hn. destruct (astep_pend _ _ _ _ _ _ Hr Ea) as [[[S1 S2] S3]|[S1 [S2 S3]]].
    + left. split; [exact S1|]. split; [exact S2|]. split; [intros p l ->; discriminate|]. intros X Y. auto.
    + right. right. split; [exact Hr|]. split; [exact S1|]. split; [|split; [exact S2|]].
      * eapply rel_no_hooks; [apply (ci_rel _ _ _ (li_c _ _ _ L'))|exact S1].
      * unfold rdy in S3. cbn [w_obs filter] in S3. rewrite app_nil_r in S3. exact S3.
  - assert (Cn : forall p l, count (is_ready p l) new + count (is_pend p l) (b_pend (s_b s')) = count (is_pend p l) (b_pend (s_b s)) + (if asks p l e then 1 else 0)).
    { intros p l. pose proof (step_ready m0 s e s' p l (ci_good _ _ _ (li_c _ _ _ L)) E) as R. unfold readies in R. unfold since in Sn. change (b_h (s_b s')) with (s_h s') in R.
      rewrite Sn, count_app in R. unfold s_h in R. lia. }
    assert (Dr : as_fr x = map (refresh (s_h s')) A) by (destruct e; try discriminate; cbn [astep] in Ea; injection Ea as <-; reflexivity).
    assert (Ed : cs_depth (b_cs (s_b s')) = cs_depth (b_cs (s_b s))) by (rewrite <- D0, <- D1, Dr; apply depth_refresh).
    assert (Un : (exists p l, e = EUnload p l) \/ (forall p l, e <> EUnload p l)) by (destruct e; eauto; right; intros; discriminate).
    destruct Un as [(p & l & ->)|Nu].
    + right. left. exists p, l. split; [reflexivity|]. split; [exact Ed|]. cbn [astep] in Ea. injection Ea as <-. cbn [as_w w_pend] in Ep. rewrite D0 in Ep.
      destruct (cs_depth (b_cs (s_b s)) =? 0); (split; [exact Ep|]); rewrite Ep in Cn.
      * apply one_filter. intros q m. specialize (Cn q m). cbn [asks] in Cn. lia.
      * apply no_filter. intros q m. specialize (Cn q m). rewrite count_app in Cn. cbn [asks] in Cn.
        assert (X : count (is_pend q m) [Pend p l false] = if Z.eqb p q && Z.eqb l m then 1 else 0).
        { unfold count. cbn [filter]. unfold is_pend. cbn [pd_plug pd_listener]. destruct (_ && _); reflexivity. } lia.
    + left. assert (Eq : b_pend (s_b s') = b_pend (s_b s)).
      { rewrite Ep. destruct e; try discriminate; cbn [astep] in Ea; try (injection Ea as <-; reflexivity). exfalso. eapply Nu. reflexivity. }
      split; [exact Eq|]. split; [|split; [exact Nu|congruence]]. apply no_filter. intros p l. specialize (Cn p l). rewrite Eq in Cn.
      assert (asks p l e = false) by (destruct e; try discriminate; try reflexivity; exfalso; eapply Nu; reflexivity). rewrite H in Cn. lia.
Qed.

(** A request made while hook functions run waits until the stack of contexts
    has become empty once; the notification is sent when it becomes empty again. *)
Lemma waits_twice : forall m0 p l s A es s' A', (forall a, Z.odd (m0 a) = false) -> LInv m0 s A -> tracks s A es s' A' ->
  (forall x, In x (b_pend (s_b s)) -> is_pend p l x = true -> pd_deact x = false) ->
  (exists k1 k2 r B, es = k1 ++ k2 /\ k1 <> [] /\ tracks s A k1 r B /\ cs_depth (b_cs (s_b r)) = 0) \/
  (forall x, In x (b_pend (s_b s')) -> is_pend p l x = true -> pd_deact x = false).
Proof.
  intros m0 p l s A es s' A' Ev L T. induction T as [s A|s A e s1 x es s' A' Al E Ea T IH]; intros H; [right; exact H|].
  destruct (step_loop m0 s A e s1 Ev L Al E) as (x' & new & Ea' & L' & Sn & _). assert (x' = x) by congruence. subst x'.
  assert (One : tracks s A [e] s1 (as_fr x)) by (econstructor; eauto; constructor).
  assert (H1 : cs_depth (b_cs (s_b s1)) = 0 \/ (forall y, In y (b_pend (s_b s1)) -> is_pend p l y = true -> pd_deact y = false)).
  { destruct (step_pend m0 s A e s1 new Ev L Al E Sn) as [(P1 & _)|[(q & m & -> & _ & P1)|(_ & P1 & _)]]; [right; rewrite P1; exact H| |left; exact P1].
    right. destruct (_ =? 0); destruct P1 as [P1 _]; rewrite P1; [exact H|]. intros y Iy. apply in_app_or in Iy. destruct Iy as [Iy|[<-|[]]]; auto. }
  destruct H1 as [H1|H1].
  - left. exists [e], es, s1, (as_fr x). split; [reflexivity|]. split; [discriminate|auto].
  - destruct (IH L' H1) as [(k1 & k2 & r & B & -> & K & Tr & D)|H2]; [|right; exact H2].
    left. exists (e :: k1), k2, r, B. split; [reflexivity|]. split; [discriminate|]. split; [econstructor; eauto|exact D].
Qed.
