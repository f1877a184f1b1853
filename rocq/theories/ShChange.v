(** What one event does to the installed hooks and to the trace, and the
    consequences for whole histories. *)
From Coq Require Import List Bool Arith ZArith Lia Sorted Permutation.
From Verif Require Import ProtoModel ProtoSpec ProtoProofs ShModel ShRun ShLists ShInv ShMan ShHooks ShAdd ShRem ShApi ShUnload ShHist ShGood ShPool ShSpec ShView.
Import ListNotations.
Local Open Scope nat_scope.

Lemma reachable_good : forall mem s, reachable mem s -> Good mem s.
Proof.
  intros mem s (pfs & vt & l & P & E). apply (run_good mem l (init pfs mem vt)); auto. apply Good_init. exact P.
Qed.

(** The kinds of events *)
Inductive change (s s' : state) (new : list obs) : Prop :=
| ch_run : h_vfns (s_h s') = h_vfns (s_h s) -> h_delegs (s_h s') = h_delegs (s_h s) -> h_ids (s_h s') = h_ids (s_h s) ->
           Forall (run_obs (s_h s)) new -> change s s' new
| ch_add slot adj post hk : added (s_h s) (s_h s') slot adj post hk ->
           Forall (patch_on (eq slot)) new -> deleted new = [] -> Forall api_obs new -> change s s' new
| ch_rem D : (forall s0 a p k, hook_at (s_h s') s0 a p k <-> hook_at (s_h s) s0 a p k /\ D (hk_id k) = false) ->
           (forall x, query_hook (h_ids (s_h s')) x = if D x then None else query_hook (h_ids (s_h s)) x) ->
           Forall (patch_on (fun x => In x (slots (s_h s)))) new ->
           Permutation (deleted new ++ h_delegs (s_h s')) (h_delegs (s_h s)) -> Forall api_obs new -> change s s' new
| ch_pause D p : h_vfns (s_h s') = map (pause_vfn D p) (h_vfns (s_h s)) -> h_delegs (s_h s') = h_delegs (s_h s) ->
           h_ids (s_h s') = h_ids (s_h s) -> new = [] -> change s s' new.

Lemma change_removed : forall s k D, removed (s_h s) (c_h k) D -> qstep (s_h s) (c_h k) ->
  exists new, since s (with_k s k) new /\ change s (with_k s k) new.
Proof.
  intros s k D R [_ (l & E & F & P)]. exists l. split; [exact E|]. apply (ch_rem s (with_k s k) l D); auto; try apply R.
  destruct (rv_step _ _ _ R) as [_ _ _ (l' & E' & F')]. fold (s_h s) in *. cbn in *.
  assert (l = l'); [|subst; apply hook_apis; exact F']. rewrite E in E'. apply app_inv_tail in E'. exact E'.
Qed.

Theorem step_change : forall m0 s e s', Good m0 s -> step s e = Ok s' ->
  exists new, since s s' new /\ change s s' new.
Proof.
  intros m0 s e s' G E. destruct (runs e) eqn:Hr.
  { pose proof (step_runs s e s' Hr E) as [R1 R2 R3 R4 R5 R6 R7 R8 R9 R10 (l & El & Fl) _].
    exists l. split; [exact El|]. apply ch_run; auto. }
  assert (Z0 : forall x, h_vfns (s_h x) = h_vfns (s_h s) -> h_delegs (s_h x) = h_delegs (s_h s) -> h_ids (s_h x) = h_ids (s_h s) ->
    h_tr (s_h x) = h_tr (s_h s) -> exists new, since s x new /\ change s x new).
  { intros x X1 X2 X3 X4. exists []. split; [exact X4|]. apply ch_run; auto. }
  destruct G as [W P R D]. pose proof (Build_Good m0 s W P R D) as G.
  destruct e; try discriminate; cbn [step] in E.
  - destruct (add_hook_cases m0 s plug mode ifp offs pf handler post G) as [[_ Ea]|[(_ & _ & _ & Ea)|(info & h' & hk & Ef & Ea & _ & _ & _ & _ & A & _)]];
      rewrite Ea in E; try discriminate; injection E as <-.
    + apply Z0; reflexivity.
    + assert (W' : WF m0 (Core (s_h s) (Cs [] 0) (c_tasks (s_k s)))) by (destruct W; constructor; auto).
      destruct (t_add_hook m0 (s_h s) (c_tasks (s_k s)) plug mode ifp offs pf handler post h' _ info W' Ef Ea) as (l & El & Fl & Dl).
      exists l. split; [exact El|]. eapply ch_add; eauto.
      destruct (ad_tr _ _ _ _ _ _ A) as (l' & E' & F'). rewrite El in E'. apply app_inv_tail in E'. subst. apply hook_apis. exact F'.
  - destruct (h_pfs (s_h s) pf) as [info|] eqn:Ef.
    + destruct (remove_hook_ok m0 (s_k s) plug ifp offs pf handler post info W P Ef) as (k' & b & D' & Er & W' & Rm & _).
      rewrite Er in E. injection E as <-. eapply change_removed; [exact Rm|eapply q_remove_hook; exact Er].
    + unfold remove_hook in E. change (c_h (s_k s)) with (s_h s) in E. rewrite Ef in E. injection E as <-. apply Z0; reflexivity.
  - destruct (remove_ids_ok m0 [id] (s_k s) W) as (k' & b & Er & W' & Rm & _). pose proof (q_remove_ids _ _ _ _ Er) as Q. cbn [remove_ids] in Er.
    destruct (remove_by_id (s_k s) id) as [[k1 b1]|]; [|discriminate]. injection Er as <- _. injection E as <-.
    eapply change_removed; [exact Rm|exact Q].
  - injection E as <-. exists []. assert (X := set_paused_eq (s_h s) id p (wf_h m0 _ W)). split.
    + unfold since. cbn. rewrite X. reflexivity.
    + apply (ch_pause _ _ _ (Z.eqb id) p); cbn; try rewrite X; reflexivity.
  - injection E as <-. exists []. destruct (pause_plugin_ok m0 (s_k s) plug p W) as [W' (D' & X & _)].
    change (c_h (s_k s)) with (s_h s) in X. split.
    + unfold since. cbn. rewrite X. reflexivity.
    + apply (ch_pause _ _ _ D' p); cbn; try rewrite X; reflexivity.
  - unfold unload_plugin in E. destruct (unload_hooks_ok m0 (s_k s) plug W) as (k' & D' & Eu & W' & Rm & _). rewrite Eu in E.
    pose proof (q_unload _ _ _ Eu) as [Q0 (l & El & Fl & Pl)].
    assert (Fa : Forall api_obs l).
    { destruct (rv_step _ _ _ Rm) as [_ _ _ (l' & E' & F')]. rewrite El in E'. apply app_inv_tail in E'. subst. apply hook_apis. exact F'. }
    destruct (cs_depth (c_cs k') =? 0); injection E as <-.
    + exists (OReady plug listener :: l). split; [exact (f_equal (cons (OReady plug listener)) El)|].
      apply (ch_rem _ _ _ D').
      * apply Rm.
      * apply Rm.
      * constructor; [exact I|exact Fl].
      * exact Pl.
      * constructor; [exact I|exact Fa].
    + exists l. split; [exact El|]. apply (ch_rem _ _ _ D'); auto; apply Rm.
  - unfold remove_hookman_pf in E. destruct (find (man_key plug pf) (h_mans (c_h (s_k s)))) as [m|] eqn:F.
    + assert (Gm : get_man (c_h (s_k s)) (mn_obj m) = Some m).
      { apply get_man_in; [apply (wm_mobj m0 _ (wf_m m0 _ W))|apply (find_some _ _ F)]. }
      destruct (remove_hookman_ok m0 (s_k s) (mn_obj m) m W Gm) as (k' & Er & W' & _ & _ & Rm & _). rewrite Er in E. injection E as <-.
      eapply change_removed; [exact Rm|eapply q_remove_hookman; exact Er].
    + injection E as <-. apply Z0; reflexivity.
  - unfold reconfigure in E. destruct (remove_hookman_pf (s_k s) plug pf) as [k1|] eqn:E1; [|discriminate].
    assert (X : exists new, since s (with_k s k1) new /\ change s (with_k s k1) new).
    { unfold remove_hookman_pf in E1. destruct (find (man_key plug pf) (h_mans (c_h (s_k s)))) as [m|] eqn:F.
      - assert (Gm : get_man (c_h (s_k s)) (mn_obj m) = Some m).
        { apply get_man_in; [apply (wm_mobj m0 _ (wf_m m0 _ W))|apply (find_some _ _ F)]. }
        destruct (remove_hookman_ok m0 (s_k s) (mn_obj m) m W Gm) as (k' & Er & W' & _ & _ & Rm & _). rewrite Er in E1. injection E1 as <-.
        eapply change_removed; [exact Rm|eapply q_remove_hookman; exact Er].
      - injection E1 as <-. apply Z0; reflexivity. }
    destruct X as (new & N1 & N2).
    destruct (h_pfs (c_h k1) pf) as [i|]; injection E as <-; exists new; (split; [exact N1|]); [|exact N2].
    destruct N2 as [A1 A2 A3 A4|slot adj post hk A1 A2 A3 A4|D' A1 A2 A3 A4 A5|D' p A1 A2 A3 A4].
    + apply ch_run; auto.
    + exfalso. (* not an addition *)
      unfold remove_hookman_pf in E1. pose proof (q_remove_hookman_pf _ _ _ _ E1) as [_ (l & _ & _ & Pl)].
      pose proof (Permutation_length Pl) as L. rewrite app_length in L. pose proof (ad_delegs _ _ _ _ _ _ A1) as Ad.
      change (h_delegs (s_h (with_k s k1))) with (h_delegs (c_h k1)) in Ad. rewrite Ad in L. cbn [length] in L.
      unfold s_h, s_k, b_h in *. lia.
    + eapply ch_rem; eauto.
    + eapply ch_pause; eauto.
  - destruct (complete_shutdown_ok m0 (s_k s) W) as (k' & D' & Er & W' & Rm & _). rewrite Er in E. injection E as <-.
    eapply change_removed; [exact Rm|eapply q_shutdown; exact Er].
  - injection E as <-. apply Z0; reflexivity.
Qed.

Lemma run_obs_deleted : forall h l, Forall (run_obs h) l -> deleted l = [].
Proof. intros h l F. apply (run_regs h l F). Qed.

(** ** Hooks stay until they are destroyed *)
Lemma step_persists : forall m0 s e s' sl a p k, Good m0 s -> step s e = Ok s' -> In k (installed (s_h s) sl a p) ->
  exists new, since s s' new /\
    ((exists k', In k' (installed (s_h s') sl a p) /\ same_hook k k' /\ query_hook (h_ids (s_h s')) (hk_id k) = query_hook (h_ids (s_h s)) (hk_id k)) \/ In (hk_nid k) (deleted new)).
Proof.
  intros m0 s e s' sl a p k G E H. destruct (step_change m0 s e s' G E) as (new & N & C). exists new. split; [exact N|].
  pose proof (step_good m0 s e s' G E) as G'.
  destruct C as [A1 A2 A3 A4|slot adj post hk A1 A2 A3 A4|D A1 A2 A3 A4 A5|D q A1 A2 A3 A4].
  - left. exists k. split; [|split; [repeat split|rewrite A3; reflexivity]]. rewrite (installed_ext _ _ A1). exact H.
  - left. exists k. split; [|split; [repeat split|]].
    2:{ apply (ad_other _ _ _ _ _ _ A1). intros C. pose proof (ad_new _ _ _ _ _ _ A1) as Nw.
        destruct (installed_query _ _ _ _ _ (wf_h _ _ (g_wf _ _ G)) H) as (e0 & Q0 & _). change (c_h (s_k s)) with (s_h s) in Q0. congruence. }
    apply in_installed. apply (ad_hooks _ _ _ _ _ _ A1). left. apply in_installed. exact H.
  - destruct (D (hk_id k)) eqn:Ed.
    + right. pose proof (wf_h _ _ (g_wf _ _ G)) as W.
      pose proof (installed_deleg _ _ _ _ _ W H) as Hd.
      assert (X : In (hk_nid k) (deleted new ++ h_delegs (s_h s'))) by (eapply Permutation_in; [symmetry; exact A4|exact Hd]).
      apply in_app_iff in X. destruct X as [X|X]; [exact X|]. exfalso.
      pose proof (wf_h _ _ (g_wf _ _ G')) as W2. change (c_h (s_k s')) with (s_h s') in W2.
      destruct (proj1 (wh_delegs _ W2 _) X) as (id & e' & Q & En). rewrite A2 in Q. destruct (D id) eqn:Ei; [discriminate|].
      destruct (installed_query _ _ _ _ _ W H) as (e0 & Q0 & X0). destruct X0 as (_ & _ & _ & _ & _ & En0 & _).
      assert (id = hk_id k); [|congruence]. apply (wh_nid _ W id e' (hk_id k) e0); auto. congruence.
    + left. exists k. split; [|split; [repeat split|rewrite A2, Ed; reflexivity]]. apply in_installed. apply A1. split; auto. apply in_installed. exact H.
  - left. pose proof (wf_h _ _ (g_wf _ _ G)) as W.
    exists (pause_hook D q k). split.
    + apply in_installed. apply in_installed in H. pose proof (pause_hook_at (s_h s) D q) as X. cbv zeta in X.
      destruct (proj2 (X sl a p (pause_hook D q k)) (ex_intro _ k (conj H eq_refl))) as (v & i & Y). exists v, i. cbn in Y. rewrite A1. exact Y.
    + split; [unfold pause_hook; destruct (D (hk_id k)); repeat split|]. rewrite A3. reflexivity.
Qed.

Lemma same_hook_trans : forall a b c, same_hook a b -> same_hook b c -> same_hook a c.
Proof. intros a b c (A1 & A2 & A3 & A4 & A5) (B1 & B2 & B3 & B4 & B5). repeat split; congruence. Qed.

Theorem run_persists : forall m0 l s s' sl a p k, Good m0 s -> run s l = Ok s' -> In k (installed (s_h s) sl a p) ->
  exists new, since s s' new /\
    ((exists k', In k' (installed (s_h s') sl a p) /\ same_hook k k' /\ query_hook (h_ids (s_h s')) (hk_id k) = query_hook (h_ids (s_h s)) (hk_id k)) \/ In (hk_nid k) (deleted new)).
Proof.
  intros m0 l. induction l as [|e l IH]; intros s s' sl a p k G E H; cbn [run] in E.
  - injection E as <-. exists []. split; [reflexivity|]. left. exists k. split; [exact H|split; [repeat split|reflexivity]].
  - destruct (step s e) as [s1| |] eqn:E1; try discriminate.
    destruct (step_persists m0 s e s1 sl a p k G E1 H) as (n1 & N1 & C1). pose proof (step_good m0 s e s1 G E1) as G1.
    assert (X : exists n2, since s1 s' n2 /\ forall k1, In k1 (installed (s_h s1) sl a p) ->
      (exists k', In k' (installed (s_h s') sl a p) /\ same_hook k1 k' /\ query_hook (h_ids (s_h s')) (hk_id k1) = query_hook (h_ids (s_h s1)) (hk_id k1)) \/ In (hk_nid k1) (deleted n2)).
    { clear -IH G1 E. assert (T : exists n2, since s1 s' n2).
      { clear IH. revert s1 G1 E. induction l as [|e l IHl]; intros s1 G1 E; cbn in E.
        - injection E as <-. exists []. reflexivity.
        - destruct (step s1 e) as [s2| |] eqn:E2; try discriminate. destruct (step_change m0 s1 e s2 G1 E2) as (n & N & _).
          destruct (IHl s2 (step_good m0 s1 e s2 G1 E2) E) as (n' & N'). exists (n' ++ n). unfold since in *. rewrite N', N, app_assoc. reflexivity. }
      destruct T as (n2 & T). exists n2. split; auto. intros k1 H1. destruct (IH s1 s' sl a p k1 G1 E H1) as (n & N & C).
      assert (n = n2); [|subst; exact C]. unfold since in *. rewrite T in N. symmetry. apply app_inv_tail in N. exact N. }
    destruct X as (n2 & N2 & C2). exists (n2 ++ n1). split; [unfold since in *; rewrite N2, N1, app_assoc; reflexivity|].
    rewrite deleted_app. destruct C1 as [(k1 & H1 & S1 & Q1)|Hd].
    + destruct (C2 k1 H1) as [(k' & H' & S' & Q')|Hd].
      * left. exists k'. split; [exact H'|]. split; [eapply same_hook_trans; eauto|]. destruct S1 as (_ & _ & _ & _ & I1). congruence.
      * right. apply in_app_iff. left. destruct S1 as (<- & _). exact Hd.
    + right. apply in_app_iff. right. exact Hd.
Qed.

(** ** A destroyed delegate is not called *)
Definition quiet (t : list obs) : Prop :=
  forall t1 t2 f n hd ip pr, t = t1 ++ OHandler f n hd ip pr :: t2 -> ~ In (ODelete n) t2.

Lemma in_deleted : forall n t, In n (deleted t) <-> In (ODelete n) t.
Proof.
  intros n t. induction t as [|o t IH]; [cbn; tauto|]. destruct o; cbn [deleted In]; rewrite ?IH;
    (split; [intros H; auto|intros [H|H]; [discriminate|auto]]) || idtac.
  split; [intros [->|H]; [left; reflexivity|right; exact H]|].
  intros [H|H]; [injection H as ->; left; reflexivity|right; exact H].
Qed.

Lemma quiet_app : forall new t, quiet t ->
  (forall f n hd ip pr, In (OHandler f n hd ip pr) new -> ~ In n (deleted new) /\ ~ In n (deleted t)) -> quiet (new ++ t).
Proof.
  intros new t Q H. induction new as [|o new IH]; [exact Q|].
  intros t1 t2 f n hd ip pr E. destruct t1 as [|x t1].
  - cbn in E. injection E as -> <-. destruct (H f n hd ip pr (or_introl eq_refl)) as [H1 H2].
    rewrite <- in_deleted, deleted_app, in_app_iff. cbn [deleted] in H1. tauto.
  - cbn in E. injection E as -> E. refine (IH _ t1 t2 f n hd ip pr E). intros f0 n0 hd0 ip0 pr0 Hi. destruct (H f0 n0 hd0 ip0 pr0 (or_intror Hi)) as [H1 H2]. split; auto.
    intros C. apply H1. destruct x; cbn [deleted]; auto. right. exact C.
Qed.

Lemma step_quiet : forall m0 s e s', Good m0 s -> step s e = Ok s' -> quiet (h_tr (s_h s)) -> quiet (h_tr (s_h s')).
Proof.
  intros m0 s e s' G E Q. destruct (step_change m0 s e s' G E) as (new & N & C). rewrite N. apply quiet_app; auto.
  intros f n hd ip pr Hi.
  destruct C as [A1 A2 A3 A4|slot adj post hk A1 A2 A3 A4|D A1 A2 A3 A4 A5|D q A1 A2 A3 A4].
  - rewrite (run_obs_deleted _ _ A4). split; [intros []|]. rewrite Forall_forall in A4. destruct (A4 _ Hi) as (sl & a & p & k & Hk & En & _).
    pose proof (wf_h _ _ (g_wf _ _ G)) as W. apply in_installed in Hk. pose proof (installed_deleg _ _ _ _ _ W Hk) as Hd.
    destruct (g_wd _ _ G) as [ND _]. apply nodup_app in ND. destruct ND as (_ & _ & ND). intros C. apply (ND n); auto. rewrite <- En. exact Hd.
  - rewrite Forall_forall in A4. destruct (A4 _ Hi).
  - rewrite Forall_forall in A5. destruct (A5 _ Hi).
  - subst new. destruct Hi.
Qed.

Theorem run_quiet : forall m0 l s s', Good m0 s -> run s l = Ok s' -> quiet (h_tr (s_h s)) -> quiet (h_tr (s_h s')).
Proof.
  intros m0 l. induction l as [|e l IH]; intros s s' G E Q; cbn [run] in E.
  - injection E as <-. exact Q.
  - destruct (step s e) as [s1| |] eqn:E1; try discriminate. apply (IH s1); auto; [apply (step_good m0 s e)|apply (step_quiet m0 s e)]; auto.
Qed.

(** ** Slots written *)
Theorem step_patches : forall m0 s e s' new sl c, Good m0 s -> step s e = Ok s' -> since s s' new -> In (OPatch sl c) new ->
  hooked (s_h s) sl \/ hooked (s_h s') sl.
Proof.
  intros m0 s e s' new sl c G E N H. destruct (step_change m0 s e s' G E) as (new' & N' & C).
  assert (new' = new). { unfold since in *. rewrite N in N'. symmetry. apply app_inv_tail in N'. exact N'. } subst new'.
  destruct C as [A1 A2 A3 A4|slot adj post hk A1 A2 A3 A4|D A1 A2 A3 A4 A5|D q A1 A2 A3 A4].
  - rewrite Forall_forall in A4. destruct (A4 _ H).
  - rewrite Forall_forall in A2. specialize (A2 _ H). cbn in A2. subst slot. right. exists adj, post, hk. apply in_installed.
    apply (ad_hooks _ _ _ _ _ _ A1). right. auto.
  - rewrite Forall_forall in A3. specialize (A3 _ H). cbn in A3. left. apply (hooked_vfn _ _ (wf_n _ _ (g_wf _ _ G))).
    unfold slots in A3. apply in_map_iff in A3. destruct A3 as (v & <- & Hv). exists v. auto.
  - subst new. destruct H.
Qed.
