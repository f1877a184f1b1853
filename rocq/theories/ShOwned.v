(** Hooks whose plugin has a manager on their slot; what removals destroy. *)
From Coq Require Import List Bool Arith ZArith Lia Sorted Permutation.
From Verif Require Import ProtoModel ProtoSpec ProtoProofs ShModel ShRun ShLists ShInv ShMan ShHooks ShAdd ShRem ShApi ShUnload ShHist ShGood ShPool ShSpec ShView ShChange ShMgr.
Import ListNotations.
Local Open Scope nat_scope.

Lemma owned_orphans : forall h, WH h -> (owned h <-> no_orphans h).
Proof.
  intros h W. split.
  - intros O sl a p k H. apply in_installed in H. destruct (O sl a p k H) as (v & mo & Hv & Ev & Hm & Em).
    exists mo. split; [|exact Em]. rewrite <- Ev, (managers_vfn h v W Hv). exact Hm.
  - intros N sl a p k H. destruct (N sl a p k (proj2 (in_installed _ _ _ _ _) H)) as (o & Ho & Eo).
    destruct (managers_cases h sl W) as [(v & Hv & Ev & E)|[_ E]]; rewrite E in Ho; [|contradiction]. exists v, o. auto.
Qed.

Lemma owned_same : forall h h', h_vfns h' = h_vfns h -> h_mans h' = h_mans h -> owned h -> owned h'.
Proof.
  intros h h' E1 E2 O s a p x (v & i & H). rewrite E1 in H. destruct (O s a p x (ex_intro _ v (ex_intro _ i H))) as (v' & mo & H').
  exists v', mo. rewrite E1. unfold man_plug, get_man in *. rewrite E2. exact H'.
Qed.

Lemma owned_hookman_pf : forall m0 k p f k', WF m0 k -> owned (c_h k) -> tidy_man (c_h k) p f -> remove_hookman_pf k p f = Some k' -> owned (c_h k').
Proof.
  intros m0 k p f k' W O T E. unfold remove_hookman_pf in E. destruct (find (man_key p f) (h_mans (c_h k))) as [m|] eqn:F.
  2:{ injection E as <-. exact O. }
  assert (Gm : get_man (c_h k) (mn_obj m) = Some m).
  { apply get_man_in; [apply (wm_mobj m0 _ (wf_m m0 _ W))|apply (find_some _ _ F)]. }
  destruct (find_some _ _ F) as [_ Km]. unfold man_key in Km. apply andb_true_iff in Km. destruct Km as [Kp Kf]. apply Z.eqb_eq in Kp, Kf.
  destruct (remove_hookman_ok m0 k (mn_obj m) m W Gm) as (k1 & Er & W' & K & _ & Rm & L). rewrite Er in E. injection E as <-.
  refine (owned_removed m0 k k1 (mn_obj m) m _ W O Gm _ K Rm L).
  intros v i q x Hv Ho Hi Hx. replace (mn_plug m) with p by congruence.
  apply (T (mn_obj m) (vf_ptr v) (if_ptr i) q x).
  - rewrite (managers_vfn _ v (wf_h _ _ W) Hv). exact Ho.
  - unfold manager_of. rewrite Gm. cbn. congruence.
  - unfold hook_function. rewrite Gm. cbn. congruence.
  - rewrite (installed_iface _ v i q (wf_h _ _ W) Hv Hi). exact Hx.
Qed.

Lemma owned_pause : forall h D p h', h' = set_vfns h (map (pause_vfn D p) (h_vfns h)) -> owned h -> owned h'.
Proof.
  intros h D p h' -> O s a q x H. pose proof (pause_hook_at h D p) as X. cbv zeta in X. apply X in H. destruct H as (k & Hk & ->).
  destruct (O s a q k Hk) as (v & mo & Hv & Ev & Hm & Em). exists (pause_vfn D p v), mo. cbn [set_vfns h_vfns].
  split; [apply in_map; exact Hv|]. split; [exact Ev|]. split; [exact Hm|].
  replace (hk_plug (pause_hook D p k)) with (hk_plug k); [exact Em|]. unfold pause_hook. destruct (D (hk_id k)); reflexivity.
Qed.

Lemma man_inserted_in : forall h o l l', man_inserted h o l l' -> forall x, In x l -> In x l'.
Proof.
  intros h o l l' [[_ ->]|(_ & l1 & l2 & z & -> & -> & _)] x H; [exact H|]. rewrite in_app_iff in *. cbn. tauto.
Qed.

Theorem step_owned : forall m0 s e s', Good m0 s -> step s e = Ok s' -> owned (s_h s) ->
  match e with ERemoveMan plug pf | EReconfigure plug pf _ _ => tidy_man (s_h s) plug pf | _ => True end -> owned (s_h s').
Proof.
  intros m0 s e s' G E O T. destruct (runs e) eqn:Hr.
  { pose proof (step_runs s e s' Hr E) as [R1 R2 R3 R4 R5 R6 R7 R8 R9 R10 _]. apply (owned_same (s_h s)); auto. }
  destruct G as [W P R D]. pose proof (Build_Good m0 s W P R D) as G. pose proof (wf_h _ _ W) as WHs. change (c_h (s_k s)) with (s_h s) in WHs.
  destruct e; try discriminate; cbn [step] in E.
  - destruct (add_hook_cases m0 s plug mode ifp offs pf handler post G) as [[_ Ea]|[(_ & _ & _ & Ea)|(info & h' & hk & Ef & Ea & Ep & _ & _ & _ & A & _ & _ & Mg & _)]];
      rewrite Ea in E; try discriminate; injection E as <-; [exact O|].
    intros sl a q x H. apply (ad_hooks _ _ _ _ _ _ A) in H. destruct H as [H|(-> & -> & -> & ->)].
    + destruct (O sl a q x H) as (v & mo & Hv & Ev & Hm & Em).
      destruct (ad_mans _ _ _ _ _ _ A v Hv) as (w' & Hw' & _ & Ew & M1 & M2). exists w', mo.
      split; [exact Hw'|]. split; [congruence|]. split.
      * destruct (Z.eq_dec (vf_ptr v) (fst (hook_target (s_h s) mode ifp offs info))) as [Es|Es].
        -- destruct (M2 Es) as (o & _ & Mi). apply (man_inserted_in _ _ _ _ Mi). exact Hm.
        -- rewrite (M1 Es). exact Hm.
      * apply (ad_plug _ _ _ _ _ _ A). exact Em.
    + destruct Mg as (w' & mo & Hw & Ew & Hm & Pm & _). exists w', mo. rewrite Ep. auto.
  - unfold remove_hook in E. destruct (h_pfs _ pf) as [info|]; [|injection E as <-; exact O].
    destruct (find_ids_opt _ _ _) as [[|x l]|]; [injection E as <-; exact O| |discriminate].
    destruct (remove_ids_ok m0 (x :: l) (s_k s) W) as (k' & b & Er & W' & Rm & K & _).
    rewrite Er in E. injection E as <-.
    refine (owned_rem m0 (s_k s) k' _ W W' Rm K _ O). intros w' Hw'. destruct (remove_ids_mans m0 _ _ _ _ W Er w' Hw') as (w & ? & _ & ? & ?). exists w. auto.
  - destruct (remove_ids_ok m0 [id] (s_k s) W) as (k' & b & Er & W' & Rm & K & _). pose proof (remove_ids_mans m0 _ _ _ _ W Er) as L.
    cbn [remove_ids] in Er.
    destruct (remove_by_id (s_k s) id) as [[k1 b1]|]; [|discriminate]. injection Er as <- _. injection E as <-.
    refine (owned_rem m0 (s_k s) k1 _ W W' Rm K _ O). intros w' Hw'. destruct (L w' Hw') as (w & ? & _ & ? & ?). exists w. auto.
  - injection E as <-. pose proof (set_paused_eq (s_h s) id p WHs) as X.
    apply (owned_pause (s_h s) (Z.eqb id) p); [|exact O]. cbn. rewrite X. reflexivity.
  - injection E as <-. destruct (pause_plugin_ok m0 (s_k s) plug p W) as [W' (D' & X & _)]. change (c_h (s_k s)) with (s_h s) in X.
    apply (owned_pause (s_h s) D' p); [exact X|exact O].
  - unfold unload_plugin in E. destruct (unload_hooks_ok m0 (s_k s) plug W) as (k' & D' & Eu & W' & Rm & _ & _ & K & Ow & L). rewrite Eu in E.
    destruct (Ow O) as [O' _]. destruct (cs_depth (c_cs k') =? 0); injection E as <-; exact O'.
  - destruct (remove_hookman_pf (s_k s) plug pf) as [k1|] eqn:E1; [|discriminate]. injection E as <-.
    exact (owned_hookman_pf m0 _ _ _ _ W O T E1).
  - unfold reconfigure in E. destruct (remove_hookman_pf (s_k s) plug pf) as [k1|] eqn:E1; [|discriminate].
    pose proof (owned_hookman_pf m0 _ _ _ _ W O T E1) as X. destruct (h_pfs (c_h k1) pf); injection E as <-; exact X.
  - destruct (complete_shutdown_ok m0 (s_k s) W) as (k' & D' & Er & W' & Rm & _ & K & L). rewrite Er in E. injection E as <-.
    refine (owned_rem m0 (s_k s) k' _ W W' Rm K _ O). intros w' Hw'. destruct (L w' Hw') as (w & ? & _ & ? & ?). exists w. auto.
  - injection E as <-. exact O.
Qed.

Theorem run_owned : forall m0 l s s', Good m0 s -> run s l = Ok s' -> owned (s_h s) -> tidy s l -> owned (s_h s').
Proof.
  intros m0 l. induction l as [|e l IH]; intros s s' G E O T; cbn [run] in E.
  - injection E as <-. exact O.
  - destruct (step s e) as [s1| |] eqn:E1; try discriminate. cbn [tidy] in T. destruct T as [T1 T2]. rewrite E1 in T2.
    apply (IH s1); auto; [apply (step_good m0 s e); auto|]. apply (step_owned m0 s e s1 G E1 O). destruct e; auto.
Qed.

(** Exactly the delegates of the removed hooks are destroyed. *)
Lemma destroyed_exact : forall m0 s s' new (D : Z -> bool), Good m0 s -> Good m0 s' -> since s s' new ->
  (forall x, query_hook (h_ids (s_h s')) x = if D x then None else query_hook (h_ids (s_h s)) x) ->
  Permutation (deleted new ++ h_delegs (s_h s')) (h_delegs (s_h s)) ->
  NoDup (deleted new) /\
  (forall n, In n (deleted new) <-> exists sl a p k, In k (installed (s_h s) sl a p) /\ D (hk_id k) = true /\ hk_nid k = n).
Proof.
  intros m0 s s' new D G G' N Q P.
  pose proof (wf_h _ _ (g_wf _ _ G)) as W. pose proof (wf_h _ _ (g_wf _ _ G')) as W'.
  change (c_h (s_k s)) with (s_h s) in W. change (c_h (s_k s')) with (s_h s') in W'.
  assert (ND : NoDup (deleted new ++ h_delegs (s_h s'))).
  { eapply Permutation_NoDup; [symmetry; exact P|apply (wh_dnd _ W)]. }
  apply nodup_app in ND. destruct ND as (N1 & N2 & N3). split; [exact N1|]. intros n. split.
  - intros H. assert (X : In n (h_delegs (s_h s))) by (eapply Permutation_in; [exact P|apply in_app_iff; auto]).
    destruct (proj1 (wh_delegs _ W n) X) as (id & e & Qe & En). destruct (query_installed _ _ _ W Qe) as (k & Hk & Ek).
    exists (en_vfnptr e), (en_adj e), (en_post e), k. split; [exact Hk|].
    destruct (installed_query _ _ _ _ _ W Hk) as (e' & Qe' & _ & _ & _ & _ & _ & En' & _). rewrite Ek in Qe'. rewrite Qe in Qe'. injection Qe' as <-.
    split; [|congruence]. rewrite Ek. destruct (D id) eqn:Ed; [reflexivity|exfalso]. apply (N3 n H). apply (wh_delegs _ W').
    exists id, e. split; [|exact En]. rewrite Q, Ed. exact Qe.
  - intros (sl & a & p & k & Hk & Dk & <-).
    pose proof (installed_deleg _ _ _ _ _ W Hk) as X. assert (Y : In (hk_nid k) (deleted new ++ h_delegs (s_h s'))) by (eapply Permutation_in; [symmetry; exact P|exact X]).
    apply in_app_iff in Y. destruct Y as [Y|Y]; [exact Y|exfalso].
    destruct (proj1 (wh_delegs _ W' _) Y) as (id & e & Qe & En). rewrite Q in Qe. destruct (D id) eqn:Ed; [discriminate|].
    destruct (installed_query _ _ _ _ _ W Hk) as (e' & Qe' & _ & _ & _ & _ & _ & En' & _).
    assert (id = hk_id k) by (eapply (wh_nid _ W); eauto; congruence). congruence.
Qed.

Lemma nodup_single : forall (x : nat) l, NoDup l -> (forall y, In y l <-> y = x) -> l = [x].
Proof.
  intros x l N H. destruct l as [|a l]; [destruct (proj2 (H x) eq_refl)|]. assert (a = x) by (apply H; left; reflexivity). subst a.
  destruct l as [|b l]; [reflexivity|]. exfalso. inversion N; subst. apply H2. left. apply H. right. left. reflexivity.
Qed.
