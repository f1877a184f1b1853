(** The manager that serves a slot: highest version, then earliest registered. *)
From Coq Require Import List Bool Arith ZArith Lia Sorted.
From Verif Require Import ProtoModel ProtoSpec ProtoProofs ShModel ShRun ShLists ShInv ShMan ShHooks ShAdd ShRem ShApi ShUnload ShHist ShGood ShPool ShSpec ShView ShChange ShMgr.
Import ListNotations.
Local Open Scope nat_scope.

Definition ver_is (h : hs) (z : Z) (o : nat) : bool := match version h o with Some x => Z.eqb x z | None => false end.
Definition ordered (h : hs) (R : Z -> list nat) : Prop :=
  forall sl, (forall o, In o (R sl) <-> In o (managers h sl)) /\ (forall z, filter (ver_is h z) (managers h sl) = filter (ver_is h z) (R sl)).

Lemma filter_comm : forall {A} (p q : A -> bool) l, filter p (filter q l) = filter q (filter p l).
Proof.
  intros A p q l. induction l as [|x l IH]; [reflexivity|]. cbn. destruct (q x) eqn:Eq, (p x) eqn:Ep; cbn; rewrite ?Ep, ?Eq, IH; reflexivity.
Qed.
Lemma filter_ext_on : forall {A} (p q : A -> bool) l, (forall x, In x l -> p x = q x) -> filter p l = filter q l.
Proof.
  intros A p q l H. induction l as [|x l IH]; [reflexivity|]. cbn. rewrite (H x (or_introl eq_refl)), IH; [reflexivity|].
  intros y Hy. apply H. right. exact Hy.
Qed.
Lemma filter_none : forall {A} (p : A -> bool) l, (forall x, In x l -> p x = false) -> filter p l = [].
Proof. intros A p l H. rewrite (filter_ext_on p (fun _ => false) l H). apply filter_false. Qed.
Lemma filter_all : forall {A} (p : A -> bool) l, (forall x, In x l -> p x = true) -> filter p l = l.
Proof. intros A p l H. rewrite (filter_ext_on p (fun _ => true) l H). apply filter_true. Qed.

Lemma memb_false : forall o l, memb o l = false <-> ~ In o l.
Proof. intros o l. rewrite <- memb_in. destruct (memb o l); split; intros; congruence. Qed.

Lemma ver_is_eq : forall h h' x z, man_ver h' x = man_ver h x -> ver_is h' z x = ver_is h z x.
Proof. intros h h' x z E. unfold ver_is. change (version h' x) with (man_ver h' x). change (version h x) with (man_ver h x). rewrite E. reflexivity. Qed.

Lemma ordered_less : forall h h' R, mgr_less h h' -> ordered h R -> ordered h' (reg_next h h' R).
Proof.
  intros h h' R L O sl. destruct (L sl) as (P & EP & V). destruct (O sl) as [O1 O2]. unfold reg_next.
  rewrite (filter_none (fun o => negb (memb o (managers h sl))) (managers h' sl)), app_nil_r.
  2:{ intros x Hx. apply negb_false_iff, memb_in. rewrite EP in Hx. apply filter_In in Hx. apply Hx. }
  split.
  - intros o. rewrite filter_In, memb_in. split; [intros [_ H]; exact H|]. intros H. split; auto. apply O1. rewrite EP in H. apply filter_In in H. apply H.
  - intros z. set (Q := fun o => memb o (managers h' sl)).
    assert (EQ : managers h' sl = filter Q (managers h sl)).
    { rewrite EP at 1. apply filter_ext_on. intros x Hx. unfold Q. rewrite EP. destruct (P x) eqn:Ep; symmetry.
      - apply memb_in. apply filter_In. auto.
      - apply memb_false. rewrite filter_In. intros [_ C]. congruence. }
    assert (V2 : forall l, filter (ver_is h' z) (filter Q l) = filter (ver_is h z) (filter Q l)).
    { intros l. apply filter_ext_on. intros x Hx. apply filter_In in Hx. destruct Hx as [_ Hx]. apply memb_in in Hx. apply ver_is_eq. auto. }
    rewrite EQ. rewrite !V2, !(filter_comm _ Q). rewrite O2. reflexivity.
Qed.

Lemma ordered_more : forall h h' R, mgr_more h h' -> ordered h R -> ordered h' (reg_next h h' R).
Proof.
  intros h h' R M O sl. destruct (M sl) as [C V]. destruct (O sl) as [O1 O2]. unfold reg_next.
  assert (V2 : forall l z, (forall x, In x l -> In x (managers h sl)) -> filter (ver_is h' z) l = filter (ver_is h z) l).
  { intros l z H. apply filter_ext_on. intros x Hx. apply ver_is_eq. auto. }
  destruct C as [E|(o & z0 & l1 & l2 & No & E & E' & Vo & H1 & H2)].
  - rewrite E. rewrite (filter_none (fun o => negb (memb o (managers h sl))) (managers h sl)), app_nil_r.
    2:{ intros x Hx. apply negb_false_iff, memb_in. exact Hx. }
    rewrite (filter_all _ (R sl)) by (intros x Hx; apply memb_in, O1, Hx).
    split; [exact O1|]. intros z. rewrite (V2 (managers h sl)), (V2 (R sl)); auto. intros x Hx. apply O1, Hx.
  - assert (S : forall x, In x (managers h' sl) <-> x = o \/ In x (managers h sl)).
    { intros x. rewrite E, E', !in_app_iff. cbn. intuition congruence. }
    assert (X : filter (fun x => negb (memb x (managers h sl))) (managers h' sl) = [o]).
    { rewrite E'. assert (Y : forall l, (forall x, In x l -> In x (managers h sl)) -> filter (fun x => negb (memb x (managers h sl))) l = []).
      { intros l H. apply filter_none. intros x Hx. apply negb_false_iff, memb_in. auto. }
      rewrite filter_app. cbn [filter]. rewrite (proj2 (memb_false o _) No). cbn [negb].
      rewrite !Y; [reflexivity| |]; intros x Hx; rewrite E, in_app_iff; auto. }
    rewrite X. rewrite (filter_all _ (R sl)) by (intros x Hx; apply memb_in, S; right; apply O1, Hx).
    split.
    + intros x. rewrite in_app_iff, S, O1. cbn. intuition congruence.
    + intros z. rewrite E', !filter_app. cbn [filter]. rewrite (V2 (R sl)) by (intros x Hx; apply O1, Hx).
      rewrite <- O2, E, filter_app.
      rewrite (V2 l1), (V2 l2) by (intros x Hx; rewrite E, in_app_iff; auto).
      assert (Eo : ver_is h' z o = Z.eqb z0 z) by (unfold ver_is; change (version h' o) with (man_ver h' o); rewrite Vo; reflexivity).
      rewrite Eo.
      destruct (Z.eqb z0 z) eqn:Ez; [|rewrite app_nil_r; reflexivity].
      apply Z.eqb_eq in Ez. subst z0.
      assert (N2 : filter (ver_is h z) l2 = []).
      { apply filter_none. intros x Hx. destruct (H2 x Hx) as (v & Ev & Lv). rewrite <- (ver_is_eq h h').
        - unfold ver_is. change (version h' x) with (man_ver h' x). rewrite Ev. apply Z.eqb_neq. lia.
        - apply V. rewrite E, in_app_iff. auto. }
      rewrite N2, app_nil_r. reflexivity.
Qed.

Theorem run_ordered : forall m0 l s R s' R', Good m0 s -> ordered (s_h s) R -> run_reg s R l = Some (s', R') -> Good m0 s' /\ ordered (s_h s') R'.
Proof.
  intros m0 l. induction l as [|e l IH]; intros s R s' R' G O E; cbn [run_reg] in E.
  - injection E as <- <-. auto.
  - destruct (step s e) as [s1| |] eqn:E1; try discriminate. apply (IH s1 (reg_next (s_h s) (s_h s1) R)); auto.
    + apply (step_good m0 s e); auto.
    + destruct (step_managers m0 s e s1 G E1); [apply ordered_less|apply ordered_more]; auto.
Qed.

(** A slot in use is served by a manager that no other one beats. *)
Theorem active_manager : forall m0 s R sl, Good m0 s -> ordered (s_h s) R -> hooked (s_h s) sl ->
  exists R1 o R2 v f, R sl = R1 ++ o :: R2 /\ version (s_h s) o = Some v /\ hook_function (s_h s) o = Some f /\ h_mem (s_h s) sl = CHook f /\
    (forall x, In x R1 -> exists w, version (s_h s) x = Some w /\ (w < v)%Z) /\
    (forall x, In x R2 -> exists w, version (s_h s) x = Some w /\ (w <= v)%Z).
Proof.
  intros m0 s R sl G O H. pose proof (g_wf _ _ G) as W. pose proof (wf_m _ _ W) as WMs. change (c_h (s_k s)) with (s_h s) in WMs.
  apply (hooked_vfn _ _ (wf_n _ _ W)) in H. destruct H as (v & Hv & Ev). change (c_h (s_k s)) with (s_h s) in Hv.
  pose proof (managers_vfn _ v (wf_h _ _ W) Hv) as Em. change (c_h (s_k s)) with (s_h s) in Em. rewrite Ev in Em.
  pose proof (wm_sort _ _ WMs v Hv) as St. pose proof (wm_mem _ _ WMs v Hv) as Mm.
  pose proof (fun mo => wm_ref _ _ WMs v mo Hv) as Rf. pose proof (proj1 (wf_n _ _ W v Hv)) as Ne. unfold slot_code in Mm.
  destruct (vf_mans v) as [|o ms]; [contradiction|]. clear Ne. rewrite Ev in Mm.
  destruct (Rf o (or_introl eq_refl)) as (m & Gm). unfold man_pf in Mm. rewrite Gm in Mm. injection Mm as Mm.
  set (z := pf_ver (mn_info m)) in *. assert (Vo : version (s_h s) o = Some z) by (unfold version; rewrite Gm; reflexivity).
  destruct (O sl) as [O1 O2]. specialize (O2 z). rewrite Em in O1, O2. cbn [filter] in O2.
  assert (Io : ver_is (s_h s) z o = true) by (unfold ver_is; rewrite Vo; apply Z.eqb_refl). rewrite Io in O2.
  assert (Le : forall x, In x (o :: ms) -> exists w, version (s_h s) x = Some w /\ (w <= z)%Z).
  { intros x [<-|Hx]; [exists z; split; [exact Vo|lia]|]. inversion St as [|? ? _ F]; subst. rewrite Forall_forall in F. specialize (F x Hx).
    unfold ver_ge in F. change (man_ver (s_h s) o) with (version (s_h s) o) in F. rewrite Vo in F.
    change (man_ver (s_h s) x) with (version (s_h s) x) in F. destruct (version (s_h s) x) as [w|]; [|contradiction]. exists w. auto. }
  assert (X : forall l rest, o :: rest = filter (ver_is (s_h s) z) l ->
    exists l1 l2, l = l1 ++ o :: l2 /\ forall x, In x l1 -> ver_is (s_h s) z x = false).
  { intros l. induction l as [|y l IH]; intros rest E; [discriminate|]. cbn in E. destruct (ver_is (s_h s) z y) eqn:Ey.
    - injection E as <- _. exists [], l. split; [reflexivity|intros x []].
    - destruct (IH rest E) as (l1 & l2 & -> & H). exists (y :: l1), l2. split; [reflexivity|]. intros x [<-|Hx]; auto. }
  destruct (X _ _ O2) as (R1 & R2 & ER & HR). exists R1, o, R2, z, (mn_pf m).
  split; [exact ER|]. split; [exact Vo|]. split; [unfold hook_function; rewrite Gm; reflexivity|]. split; [auto|].
  split; intros x Hx.
  - destruct (Le x) as (w & Ew & Lw); [apply O1; rewrite ER, in_app_iff; auto|]. exists w. split; [exact Ew|].
    specialize (HR x Hx). unfold ver_is in HR. rewrite Ew in HR. apply Z.eqb_neq in HR. lia.
  - apply Le. apply O1. rewrite ER, in_app_iff. cbn. auto.
Qed.

Lemma ordered_init : forall pfs mem vt, ordered (s_h (init pfs mem vt)) (fun _ => []).
Proof. intros pfs mem vt sl. cbn. split; [tauto|reflexivity]. Qed.

Lemma active_managers : forall m0 s o, Good m0 s ->
  act_num (s_h s) o = 1 <-> exists sl, hd_error (managers (s_h s) sl) = Some o.
Proof.
  intros m0 s o G. pose proof (g_wf _ _ G) as W. pose proof (wf_m _ _ W) as WMs. change (c_h (s_k s)) with (s_h s) in WMs.
  unfold act_num. split.
  - intros H. destruct (vfns_of (s_h s) o) as [[|x l]|] eqn:E; try discriminate.
    destruct (proj1 (wm_act _ _ WMs o _ x E) (or_introl eq_refl)) as (v & Hv & _ & Hh). exists (vf_ptr v).
    rewrite (managers_vfn (s_h s) v (wf_h _ _ W) Hv). exact Hh.
  - intros (sl & H). destruct (managers_cases _ sl (wf_h _ _ W)) as [(v & Hv & Ev & E)|[_ E]]; change (c_h (s_k s)) with (s_h s) in E; rewrite E in H; [|discriminate].
    assert (In o (vf_mans v)) by (destruct (vf_mans v); [discriminate|injection H as ->; left; reflexivity]).
    destruct (wm_ref _ _ WMs v o Hv H0) as (m & Gm).
    assert (Ev2 : vfns_of (s_h s) o = Some (mn_vfns m)) by (unfold vfns_of; rewrite Gm; reflexivity). rewrite Ev2.
    pose proof (proj2 (wm_act _ _ WMs o _ (vf_obj v) Ev2) (ex_intro _ v (conj Hv (conj eq_refl H)))) as C.
    destruct (mn_vfns m); [destruct C|reflexivity].
Qed.
