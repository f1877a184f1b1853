(** How the list of managers of a slot evolves. *)
From Coq Require Import List Bool Arith ZArith Lia Sorted Permutation.
From Verif Require Import ProtoModel ProtoSpec ProtoProofs ShModel ShRun ShLists ShInv ShMan ShHooks ShAdd ShRem ShApi ShUnload ShHist ShGood ShPool ShSpec ShView ShChange.
Import ListNotations.
Local Open Scope nat_scope.

Definition mgr_less (h h' : hs) : Prop :=
  forall sl, exists P, managers h' sl = filter P (managers h sl) /\
    forall x, In x (managers h' sl) -> man_ver h' x = man_ver h x.
Definition mgr_more (h h' : hs) : Prop :=
  forall sl, (managers h' sl = managers h sl \/
     exists o z l1 l2, ~ In o (managers h sl) /\ managers h sl = l1 ++ l2 /\ managers h' sl = l1 ++ o :: l2 /\ man_ver h' o = Some z /\
       (forall x, In x l1 -> exists v, man_ver h' x = Some v /\ (z <= v)%Z) /\
       (forall x, In x l2 -> exists v, man_ver h' x = Some v /\ (v < z)%Z)) /\
    forall x, In x (managers h sl) -> man_ver h' x = man_ver h x.

Lemma filter_true : forall {A} (l : list A), filter (fun _ => true) l = l.
Proof. intros A l. induction l as [|x l IH]; cbn; [reflexivity|]. rewrite IH. reflexivity. Qed.
Lemma filter_false : forall {A} (l : list A), filter (fun _ => false) l = [].
Proof. intros A l. induction l as [|x l IH]; cbn; auto. Qed.
Lemma del_first_filter : forall o l, NoDup l -> del_first (Nat.eqb o) l = filter (fun x => negb (x =? o)) l.
Proof.
  intros o l. induction l as [|x l IH]; intros N; [reflexivity|]. inversion N; subst. cbn. rewrite (Nat.eqb_sym x o).
  destruct (o =? x) eqn:E; cbn [negb].
  - apply Nat.eqb_eq in E. subst x. clear IH N H2. induction l as [|y l IH]; [reflexivity|]. cbn.
    destruct (y =? o) eqn:E; cbn [negb].
    + apply Nat.eqb_eq in E. subst y. exfalso. apply H1. left. reflexivity.
    + f_equal. apply IH. intros C. apply H1. right. exact C.
  - f_equal. auto.
Qed.

Lemma mgr_less_intro : forall h h' P, WH h -> WH h' ->
  (forall w', In w' (h_vfns h') -> exists w, In w (h_vfns h) /\ vf_ptr w = vf_ptr w' /\ vf_mans w' = filter P (vf_mans w)) ->
  (forall sl x, In x (managers h' sl) -> man_ver h' x = man_ver h x) -> mgr_less h h'.
Proof.
  intros h h' P W W' H V sl. destruct (managers_cases h' sl W') as [(v' & Hv & Ev & E)|[_ E]].
  - destruct (H v' Hv) as (w & Hw & Ew & Em). exists P. split; [|apply V].
    rewrite E, Em. f_equal. rewrite <- (managers_vfn h w W Hw). congruence.
  - exists (fun _ => false). rewrite filter_false. split; [exact E|]. apply V.
Qed.

Lemma mgr_more_add : forall h h' slot adj post hk, WH h -> WH h' ->
  (forall v mo, In v (h_vfns h) -> In mo (vf_mans v) -> exists m, get_man h mo = Some m) ->
  (forall v mo, In v (h_vfns h') -> In mo (vf_mans v) -> exists m, get_man h' mo = Some m) ->
  added h h' slot adj post hk -> mgr_more h h'.
Proof.
  intros h h' slot adj post hk W W' Rf Rf' A sl.
  assert (V : forall x, In x (managers h sl) -> man_ver h' x = man_ver h x).
  { intros x Hx. destruct (managers_cases h sl W) as [(v & Hv & Ev & E)|[_ E]]; rewrite E in Hx; [|contradiction].
    destruct (Rf v x Hv Hx) as (m & G). assert (Y : man_ver h x = Some (pf_ver (mn_info m))) by (unfold man_ver; rewrite G; reflexivity).
    rewrite Y. apply (ad_ver _ _ _ _ _ _ A). exact Y. }
  split; [|exact V].
  destruct (managers_cases h sl W) as [(v & Hv & Ev & E)|[N E]].
  - destruct (ad_mans _ _ _ _ _ _ A v Hv) as (w' & Hw' & Eo & Ep & M1 & M2).
    assert (E' : managers h' sl = vf_mans w') by (rewrite <- (managers_vfn h' w' W' Hw'); congruence).
    destruct (Z.eq_dec (vf_ptr v) slot) as [Es|Es].
    + destruct (M2 Es) as (o & _ & [[_ Em]|(No & l1 & l2 & z & E1 & E2 & Ez & F1 & F2)]).
      * left. congruence.
      * right. exists o, z, l1, l2. rewrite E, E', E2. repeat (split; [assumption||reflexivity|]). exact F2.
    + left. rewrite E, E'. auto.
  - destruct (Z.eq_dec sl slot) as [Es|Es].
    + subst sl. right. destruct (ad_first _ _ _ _ _ _ A N) as (w' & o & Hw' & Ep & Em).
      assert (E' : managers h' slot = [o]) by (rewrite <- Ep, (managers_vfn h' w' W' Hw'); exact Em).
      destruct (Rf' w' o Hw') as (m & G); [rewrite Em; left; reflexivity|].
      exists o, (pf_ver (mn_info m)), [], []. rewrite E, E'. cbn.
      split; [tauto|]. split; [reflexivity|]. split; [reflexivity|]. split; [unfold man_ver; rewrite G; reflexivity|].
      split; intros x [].
    + left. rewrite E. apply managers_none. intros w' Hw' C.
      destruct (ad_slots _ _ _ _ _ _ A w' Hw') as [C2|(w & Hw & C2)]; [congruence|]. apply (N w Hw). congruence.
Qed.

Lemma mgr_same : forall h h', h_vfns h' = h_vfns h -> h_mans h' = h_mans h -> mgr_less h h'.
Proof.
  intros h h' E1 E2 sl. exists (fun _ => true). rewrite filter_true. unfold managers. rewrite E1. split; [reflexivity|].
  intros x _. unfold man_ver, get_man. rewrite E2. reflexivity.
Qed.

Lemma mgr_keep : forall h h', map mkey4 (h_mans h') = map mkey4 (h_mans h) -> WH h -> WH h' ->
  (forall w', In w' (h_vfns h') -> exists w, In w (h_vfns h) /\ vf_obj w = vf_obj w' /\ vf_ptr w = vf_ptr w' /\ vf_mans w = vf_mans w') -> mgr_less h h'.
Proof.
  intros h h' K W W' H. apply (mgr_less_intro h h' (fun _ => true) W W').
  - intros w' Hw'. destruct (H w' Hw') as (w & H1 & H2 & H3 & H4). exists w. rewrite filter_true. auto.
  - intros sl x _. apply mu_ver. exact K.
Qed.

Lemma mgr_hookman : forall m0 k k' o m, WF m0 k -> WF m0 k' -> get_man (c_h k) o = Some m ->
  (forall x, option_map mkey4 (get_man (c_h k') x) = if x =? o then None else option_map mkey4 (get_man (c_h k) x)) ->
  mans_less o (map vf_obj (h_vfns (c_h k))) (c_h k) (c_h k') -> mgr_less (c_h k) (c_h k').
Proof.
  intros m0 k k' o m W W' G K L. apply (mgr_less_intro _ _ (fun x => negb (x =? o)) (wf_h _ _ W) (wf_h _ _ W')).
  - intros w' Hw'. destruct (proj1 (L w') Hw') as (w & Hw & _ & Ew). exists w. split; [exact Hw|].
    assert (Mb : memb (vf_obj w) (map vf_obj (h_vfns (c_h k))) = true) by (apply memb_in; apply in_map; exact Hw).
    rewrite Mb in Ew. subst w'. cbn. split; [reflexivity|]. apply del_first_filter. apply (wm_nd m0 _ (wf_m _ _ W) w Hw).
  - intros sl x Hx. destruct (managers_cases (c_h k') sl (wf_h _ _ W')) as [(v & Hv & Ev & E)|[_ E]]; rewrite E in Hx; [|contradiction].
    destruct (wm_ref m0 _ (wf_m _ _ W') v x Hv Hx) as (m1 & G1). specialize (K x). rewrite G1 in K. cbn [option_map] in K.
    destruct (x =? o); [discriminate|]. unfold man_ver. rewrite G1. destruct (get_man (c_h k) x) as [m2|]; [|discriminate].
    cbn [option_map] in K. injection K as _ _ _ K. congruence.
Qed.

Lemma mgr_hookman_pf : forall m0 k p f k', WF m0 k -> remove_hookman_pf k p f = Some k' -> mgr_less (c_h k) (c_h k').
Proof.
  intros m0 k p f k' W E. unfold remove_hookman_pf in E. destruct (find (man_key p f) (h_mans (c_h k))) as [m|] eqn:F.
  - assert (Gm : get_man (c_h k) (mn_obj m) = Some m).
    { apply get_man_in; [apply (wm_mobj m0 _ (wf_m m0 _ W))|apply (find_some _ _ F)]. }
    destruct (remove_hookman_ok m0 k (mn_obj m) m W Gm) as (k1 & Er & W' & K & _ & _ & L). rewrite Er in E. injection E as <-.
    apply (mgr_hookman m0 k k1 (mn_obj m) m); auto.
  - injection E as <-. apply mgr_same; reflexivity.
Qed.

Theorem step_managers : forall m0 s e s', Good m0 s -> step s e = Ok s' -> mgr_less (s_h s) (s_h s') \/ mgr_more (s_h s) (s_h s').
Proof.
  intros m0 s e s' G E. destruct (runs e) eqn:Hr.
  { pose proof (step_runs s e s' Hr E) as [R1 R2 R3 R4 R5 R6 R7 R8 R9 R10 _]. left. apply mgr_same; auto. }
  pose proof (step_good m0 s e s' G E) as G'.
  destruct G as [W P R D]. pose proof (Build_Good m0 s W P R D) as G. pose proof (wf_h _ _ W) as WHs. change (c_h (s_k s)) with (s_h s) in WHs.
  destruct e; try discriminate; cbn [step] in E.
  - destruct (add_hook_cases m0 s plug mode ifp offs pf handler post G) as [[_ Ea]|[(_ & _ & _ & Ea)|(info & h' & hk & Ef & Ea & _ & _ & _ & _ & A & _)]];
      rewrite Ea in E; try discriminate; injection E as <-.
    + left. apply mgr_same; reflexivity.
    + right. eapply mgr_more_add; [exact WHs|exact (wf_h _ _ (g_wf _ _ G'))| | |exact A].
      * apply (wm_ref m0 _ (wf_m _ _ W)).
      * apply (wm_ref m0 _ (wf_m _ _ (g_wf _ _ G'))).
  - left. unfold remove_hook in E. destruct (h_pfs _ pf) as [info|]; [|injection E as <-; apply mgr_same; reflexivity].
    destruct (find_ids_opt _ _ _) as [[|x l]|]; [injection E as <-; apply mgr_same; reflexivity| |discriminate].
    destruct (remove_ids_ok m0 (x :: l) (s_k s) W) as (k' & b & Er & W' & Rm & K & _).
    rewrite Er in E. injection E as <-. apply mgr_keep; [exact K|exact WHs|exact (wf_h _ _ W')|apply (remove_ids_mans m0 _ _ _ _ W Er)].
  - left. destruct (remove_ids_ok m0 [id] (s_k s) W) as (k' & b & Er & W' & Rm & K & _). pose proof (remove_ids_mans m0 _ _ _ _ W Er) as L.
    cbn [remove_ids] in Er.
    destruct (remove_by_id (s_k s) id) as [[k1 b1]|]; [|discriminate]. injection Er as <- _. injection E as <-.
    apply mgr_keep; [exact K|exact WHs|exact (wf_h _ _ W')|exact L].
  - left. injection E as <-. pose proof (set_paused_eq (s_h s) id p WHs) as X.
    apply mgr_keep; [cbn; rewrite X; reflexivity|exact WHs|exact (wf_h _ _ (g_wf _ _ G'))|].
    cbn. rewrite X. cbn. intros w' Hw'. apply in_map_iff in Hw'. destruct Hw' as (w & <- & Hw). exists w. auto.
  - left. injection E as <-. destruct (pause_plugin_ok m0 (s_k s) plug p W) as [W' (D' & X & _)]. change (c_h (s_k s)) with (s_h s) in X.
    apply mgr_keep; [cbn; rewrite X; reflexivity|exact WHs|exact (wf_h _ _ W')|].
    cbn. rewrite X. cbn. intros w' Hw'. apply in_map_iff in Hw'. destruct Hw' as (w & <- & Hw). exists w. auto.
  - left. unfold unload_plugin in E. destruct (unload_hooks_ok m0 (s_k s) plug W) as (k' & D' & Eu & W' & Rm & _ & _ & K & _ & L). rewrite Eu in E.
    assert (X : mgr_less (s_h s) (c_h k')).
    { eapply mgr_less_intro; [exact WHs|exact (wf_h _ _ W')| |].
      - intros w' Hw'. destruct (L w' Hw') as (w & L1 & L2 & L3 & L4). exists w. split; [exact L1|]. split; [auto|]. exact L4.
      - intros sl x Hx. destruct (managers_cases (c_h k') sl (wf_h _ _ W')) as [(v & Hv & Ev & Em)|[_ Em]]; rewrite Em in Hx; [|contradiction].
        destruct (wm_ref m0 _ (wf_m _ _ W') v x Hv Hx) as (m1 & G1). specialize (K x). rewrite G1 in K. cbn [option_map] in K.
        unfold man_ver. rewrite G1. change (s_h s) with (c_h (s_k s)).
        destruct (get_man (c_h (s_k s)) x) as [m2|]; [|discriminate]. destruct (Z.eqb _ _); [discriminate|].
        injection K as _ _ _ K. congruence. }
    destruct (cs_depth (c_cs k') =? 0); injection E as <-; exact X.
  - left. destruct (remove_hookman_pf (s_k s) plug pf) as [k1|] eqn:E1; [|discriminate]. injection E as <-.
    apply (mgr_hookman_pf m0 _ _ _ _ W E1).
  - left. unfold reconfigure in E. destruct (remove_hookman_pf (s_k s) plug pf) as [k1|] eqn:E1; [|discriminate].
    pose proof (mgr_hookman_pf m0 _ _ _ _ W E1) as X. destruct (h_pfs (c_h k1) pf); injection E as <-; exact X.
  - left. destruct (complete_shutdown_ok m0 (s_k s) W) as (k' & D' & Er & W' & Rm & _ & K & L). rewrite Er in E. injection E as <-.
    apply mgr_keep; [exact K|exact WHs|exact (wf_h _ _ W')|exact L].
  - left. injection E as <-. apply mgr_same; reflexivity.
Qed.
