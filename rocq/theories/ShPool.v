(** What operations on hooks write: which slots they patch, and that delegates
    leave the set of live ones only by being destroyed. *)
From Coq Require Import List Bool Arith ZArith Lia Permutation.
From Verif Require Import ProtoModel ShModel ShRun ShLists ShInv ShMan ShHooks ShAdd.
Import ListNotations.
Local Open Scope nat_scope.

Definition slots (h : hs) : list Z := map vf_ptr (h_vfns h).
Definition patch_on (P : Z -> Prop) (o : obs) : Prop := match o with OPatch s _ => P s | _ => True end.

(** A removal: no new slots, only slots in use are written, and what is no
    longer live has been destroyed. *)
Definition qstep (h h' : hs) : Prop :=
  incl (slots h') (slots h) /\
  exists l, h_tr h' = l ++ h_tr h /\ Forall (patch_on (fun s => In s (slots h))) l /\
    Permutation (deleted l ++ h_delegs h') (h_delegs h).


Lemma qstep_refl : forall h, qstep h h.
Proof. intros h. split; [apply incl_refl|]. exists []. repeat split; auto. Qed.

Lemma qstep_trans : forall a b c, qstep a b -> qstep b c -> qstep a c.
Proof.
  intros a b c [I1 (l1 & E1 & F1 & P1)] [I2 (l2 & E2 & F2 & P2)]. split; [eapply incl_tran; eauto|].
  exists (l2 ++ l1). split; [rewrite E2, E1, app_assoc; reflexivity|]. split.
  - apply Forall_app. split; [|exact F1]. eapply Forall_impl; [|exact F2]. intros o. destruct o; cbn; auto.
  - rewrite deleted_app, <- app_assoc. etransitivity; [|exact P1]. rewrite app_assoc.
    etransitivity; [apply Permutation_app_tail, Permutation_app_comm|]. rewrite <- app_assoc. apply Permutation_app_head. exact P2.
Qed.

(** Changes of other components *)
Lemma qstep_same : forall h h', incl (slots h') (slots h) -> h_tr h' = h_tr h -> h_delegs h' = h_delegs h -> qstep h h'.
Proof. intros h h' I E1 E2. split; [exact I|]. exists []. rewrite E2. repeat split; auto. Qed.
Lemma qstep_obs : forall h h' o, incl (slots h') (slots h) -> h_tr h' = o :: h_tr h -> h_delegs h' = h_delegs h ->
  match o with OPatch s _ => In s (slots h) | ODelete _ => False | _ => True end -> qstep h h'.
Proof.
  intros h h' o I E1 E2 H. split; [exact I|]. exists [o]. split; [exact E1|]. split.
  - constructor; [|constructor]. destruct o; cbn; auto.
  - rewrite E2. destruct o; cbn; auto; contradiction.
Qed.

Ltac qs := apply qstep_same; [apply incl_refl|reflexivity|reflexivity].
Ltac qo := eapply qstep_obs; [apply incl_refl|reflexivity|reflexivity|exact I].

Lemma q_register : forall h o h', mn_register h o = Some h' -> qstep h h'.
Proof.
  intros h o h' E. unfold mn_register in E. destruct (get_man h o) as [m|]; [|discriminate].
  destruct (h_pfs h (mn_pf m)); injection E as <-; qo.
Qed.
Lemma q_unregister : forall h o h', mn_unregister h o = Some h' -> qstep h h'.
Proof.
  intros h o h' E. unfold mn_unregister in E. destruct (get_man h o) as [m|]; [|discriminate].
  destruct (h_pfs h (mn_pf m)); injection E as <-; qo.
Qed.
Lemma q_incr : forall h o v h', incr_ref h o v = Some h' -> qstep h h'.
Proof.
  intros h o v h' E. unfold incr_ref in E. destruct (get_man h o) as [m|]; [|discriminate]. cbv zeta in E.
  match type of E with (if _ then mn_register ?x _ else _) = _ => assert (Q : qstep h x) by qs end.
  destruct (_ =? 1); [|injection E as <-; exact Q]. eapply qstep_trans; [exact Q|]. eapply q_register; eauto.
Qed.
Lemma q_decr : forall h o v h', decr_ref h o v = Some h' -> qstep h h'.
Proof.
  intros h o v h' E. unfold decr_ref in E. destruct (get_man h o) as [m|]; [|discriminate]. cbv zeta in E.
  match type of E with (if _ then mn_unregister ?x _ else _) = _ => assert (Q : qstep h x) by qs end.
  destruct (_ =? 0); [|injection E as <-; exact Q]. eapply qstep_trans; [exact Q|]. eapply q_unregister; eauto.
Qed.
Lemma q_patch : forall h s c, In s (slots h) -> qstep h (patch h s c).
Proof. intros h s c I. eapply qstep_obs; [apply incl_refl|reflexivity|reflexivity|exact I]. Qed.

Lemma del_first_perm : forall n l, In n l -> Permutation (n :: del_first (Nat.eqb n) l) l.
Proof.
  intros n l. induction l as [|x l IH]; intros H; [contradiction|]. cbn. destruct (n =? x) eqn:E.
  - apply Nat.eqb_eq in E. subst. reflexivity.
  - destruct H as [->|H]; [rewrite Nat.eqb_refl in E; discriminate|]. etransitivity; [apply perm_swap|]. constructor. auto.
Qed.

Lemma q_delete : forall h n h', delete_deleg h n = Some h' -> qstep h h'.
Proof.
  intros h n h' E. unfold delete_deleg in E. destruct (memb n (h_delegs h)) eqn:M; [|discriminate]. injection E as <-.
  split; [apply incl_refl|]. exists [ODelete n]. split; [reflexivity|]. split; [repeat constructor|].
  cbn. apply del_first_perm. apply memb_in. exact M.
Qed.
Lemma q_deletes : forall l h h', delete_delegs h l = Some h' -> qstep h h'.
Proof.
  induction l as [|k l IH]; intros h h' E; cbn in E; [injection E as <-; apply qstep_refl|].
  destruct (delete_deleg h (hk_nid k)) as [h1|] eqn:E1; [|discriminate]. eapply qstep_trans; [eapply q_delete; eauto|eauto].
Qed.
Lemma q_destroy : forall l h h', destroy_ifaces h l = Some h' -> qstep h h'.
Proof.
  induction l as [|k l IH]; intros h h' E; cbn in E; [injection E as <-; apply qstep_refl|].
  destruct (delete_delegs h _) as [h1|] eqn:E1; [|discriminate]. eapply qstep_trans; [eapply q_deletes; eauto|eauto].
Qed.
Lemma q_thunk : forall h t h', thunk_free h t = Some h' -> qstep h h'.
Proof. intros h t h' E. unfold thunk_free in E. destruct (memb _ _); [|discriminate]. injection E as <-. qo. Qed.
Lemma q_task : forall k t k', run_task k t = Some k' -> qstep (c_h k) (c_h k').
Proof.
  intros k t k' E. unfold run_task in E. destruct (find _ _) as [[a th]|]; [|discriminate].
  destruct (thunk_free (c_h k) th) as [h|] eqn:E1; [|discriminate]. injection E as <-. cbn. eapply q_thunk; eauto.
Qed.

Lemma incl_upd : forall p f l, (forall v : vfn, p v = true -> vf_ptr (f v) = vf_ptr v) ->
  map vf_ptr (upd_first p f l) = map vf_ptr l.
Proof. intros p f l H. apply map_upd_first_same. intros x _. apply H. Qed.
Lemma incl_del : forall p (l : list vfn), incl (map vf_ptr (del_first p l)) (map vf_ptr l).
Proof.
  intros p l x Hx. apply in_map_iff in Hx. destruct Hx as (v & <- & Hv). apply in_map. eapply in_del_first_weak; eauto.
Qed.

Lemma q_revert : forall k v k', In (vf_ptr v) (slots (c_h k)) -> revert_and_remove k v = Some k' -> qstep (c_h k) (c_h k').
Proof.
  intros k v k' I E. unfold revert_and_remove in E. cbv zeta in E.
  match type of E with match ?x with _ => _ end = _ => destruct x as [k1|] eqn:E1; [|discriminate] end.
  assert (Q1 : qstep (c_h k) (c_h k1) /\ slots (c_h k1) = slots (c_h k)).
  { destruct (vf_thunk v) as [th|]; [|injection E1 as <-; split; [apply qstep_refl|reflexivity]].
    destruct (attach_task _ _ _ _); [injection E1 as <-; split; [qs|reflexivity]|].
    pose proof (q_task _ _ _ E1) as Q. cbn [c_h] in Q. split; [eapply qstep_trans; [|exact Q]; qs|].
    unfold run_task in E1. destruct (find _ _) as [[a th']|]; [|discriminate]. cbn [c_h] in E1. unfold thunk_free in E1.
    destruct (memb _ _); [|discriminate]. injection E1 as <-. reflexivity. }
  destruct Q1 as [Q1 S1].
  match type of E with match ?x with _ => _ end = _ => destruct x as [h3|] eqn:E3; [|discriminate] end.
  assert (Q3 : qstep (c_h k1) h3).
  { eapply qstep_trans; [apply q_patch with (s := vf_ptr v) (c := vf_orig v); rewrite S1; exact I|].
    destruct (vf_mans v) as [|m r]; [injection E3 as <-; apply qstep_refl|eapply q_decr; eauto]. }
  destruct (destroy_ifaces h3 (vf_ifaces v)) as [h4|] eqn:E4; [|discriminate]. injection E as <-. cbn [c_h].
  eapply qstep_trans; [exact Q1|]. eapply qstep_trans; [exact Q3|]. eapply qstep_trans; [eapply q_destroy; eauto|].
  apply qstep_same; [apply incl_del|reflexivity|reflexivity].
Qed.

Lemma slots_delete : forall h n h', delete_deleg h n = Some h' -> h_vfns h' = h_vfns h.
Proof. intros h n h' E. unfold delete_deleg in E. destruct (memb _ _); [|discriminate]. injection E as <-. reflexivity. Qed.

Lemma q_remove : forall k id k' b, remove_by_id k id = Some (k', b) -> qstep (c_h k) (c_h k').
Proof.
  intros k id k' b E. unfold remove_by_id in E. cbv zeta in E.
  destruct (query_hook _ id) as [e|]; [|injection E as <- _; apply qstep_refl].
  destruct (find (vfn_at (en_vfnptr e)) _) as [v|] eqn:Fv; [|injection E as <- _; apply qstep_refl].
  destruct (find (iface_at _) _) as [i|]; [|injection E as <- _; apply qstep_refl].
  destruct (find (hook_id_is id) _) as [hk|]; [|injection E as <- _; apply qstep_refl].
  destruct (delete_deleg (c_h k) (hk_nid hk)) as [h1|] eqn:E1; [|discriminate].
  pose proof (q_delete _ _ _ E1) as Q1. pose proof (slots_delete _ _ _ E1) as V1.
  destruct (find_key_in _ vf_ptr _ _ _ (sel_vfn_at (en_vfnptr e)) Fv) as [Iv Ev].
  assert (U : forall l, qstep h1 (set_vfns h1 (upd_first (vfn_at (en_vfnptr e)) (fun _ => set_vf_ifaces l v) (h_vfns h1)))).
  { intros l. apply qstep_same; [|reflexivity|reflexivity]. unfold slots. cbn [set_vfns h_vfns]. rewrite incl_upd; [apply incl_refl|].
    intros w Hw. cbn. unfold vfn_at in Hw. apply Z.eqb_eq in Hw. congruence. }
  match type of E with match ?x with _ => _ end = _ => destruct x end.
  - match type of E with match ?x with _ => _ end = _ => destruct x end.
    + match type of E with match revert_and_remove (Core ?h _ _) ?w with _ => _ end = _ =>
        destruct (revert_and_remove (Core h _ _) w) as [k2|] eqn:E2; [|discriminate] end.
      injection E as <- _. cbn [c_h]. eapply qstep_trans; [exact Q1|]. eapply qstep_trans; [apply U|].
      eapply qstep_trans; [|qs]. eapply (q_revert (Core _ _ _)); [|exact E2]. cbn [c_h set_vf_ifaces vf_ptr].
      unfold slots. cbn [set_vfns h_vfns]. rewrite incl_upd.
      * rewrite V1. apply in_map. exact Iv.
      * intros w Hw. cbn. unfold vfn_at in Hw. apply Z.eqb_eq in Hw. congruence.
    + injection E as <- _. cbn [c_h]. eapply qstep_trans; [exact Q1|]. eapply qstep_trans; [apply U|]. qs.
  - injection E as <- _. cbn [c_h]. eapply qstep_trans; [exact Q1|]. eapply qstep_trans; [apply U|]. qs.
Qed.

Lemma q_remove_ids : forall l k k' b, remove_ids k l = Some (k', b) -> qstep (c_h k) (c_h k').
Proof.
  induction l as [|id l IH]; intros k k' b E; cbn in E; [injection E as <- _; apply qstep_refl|].
  destruct (remove_by_id k id) as [[k1 b1]|] eqn:E1; [|discriminate].
  destruct (remove_ids k1 l) as [[k2 b2]|] eqn:E2; [|discriminate]. injection E as <- _.
  eapply qstep_trans; [eapply q_remove; eauto|eauto].
Qed.
Lemma q_remove_hook : forall k a b c d e f k' r, remove_hook k a b c d e f = Some (k', r) -> qstep (c_h k) (c_h k').
Proof.
  intros k a b c d e f k' r E. unfold remove_hook in E. destruct (h_pfs _ d); [|injection E as <- _; apply qstep_refl].
  destruct (find_ids_opt _ _ _) as [[|x l]|]; [injection E as <- _; apply qstep_refl| |discriminate]. eapply q_remove_ids; eauto.
Qed.

Lemma q_hookman_removed : forall h v o h' v' r, In (vf_ptr v) (slots h) -> hookman_removed h v o = Some (h', v', r) ->
  qstep h h' /\ vf_ptr v' = vf_ptr v /\ In (vf_ptr v) (slots h').
Proof.
  intros h v o h' v' r I E. unfold hookman_removed in E. destruct (get_man h o) as [m|]; [|discriminate].
  destruct (Z.eqb _ _); [injection E as <- <- <-; split; [apply qstep_refl|auto]|].
  destruct (memb o (vf_mans v)); [|injection E as <- <- <-; split; [apply qstep_refl|auto]].
  destruct (vf_mans v) as [|first rest] eqn:Em; [discriminate|].
  assert (U : forall h0 l, slots (set_vfns h0 (upd_first (vfn_is (vf_obj v)) (set_vf_mans l) (h_vfns h0))) = slots h0).
  { intros h0 l. unfold slots. cbn [set_vfns h_vfns]. apply incl_upd. reflexivity. }
  assert (Q : forall h0 l, qstep h0 (set_vfns h0 (upd_first (vfn_is (vf_obj v)) (set_vf_mans l) (h_vfns h0)))).
  { intros h0 l. apply qstep_same; [rewrite U; apply incl_refl|reflexivity|reflexivity]. }
  destruct (first =? o).
  - destruct (decr_ref h o (vf_obj v)) as [h1|] eqn:E1; [|discriminate].
    pose proof (q_decr _ _ _ _ E1) as Q1.
    assert (S1 : slots h1 = slots h).
    { unfold decr_ref, mn_unregister in E1. destruct (get_man h o) as [m1|]; [|discriminate]. cbv zeta in E1. destruct (_ =? 0).
      - match type of E1 with match ?x with _ => _ end = _ => destruct x as [m2|]; [|discriminate] end.
        cbn [set_mans h_pfs] in E1. destruct (h_pfs h (mn_pf m2)); injection E1 as <-; reflexivity.
      - injection E1 as <-. reflexivity. }
    destruct rest as [|second rest].
    + injection E as <- <- <-. split; [eapply qstep_trans; [exact Q1|apply Q]|]. split; [reflexivity|]. rewrite U, S1. exact I.
    + match type of E with match incr_ref ?x _ _ with _ => _ end = _ => set (h2 := x) in E end.
      destruct (incr_ref h2 second (vf_obj v)) as [h3|] eqn:E3; [|discriminate].
      destruct (get_man h3 second) as [m2|]; [|discriminate]. injection E as <- <- <-.
      assert (S3 : slots h3 = slots h2).
      { unfold incr_ref, mn_register in E3. destruct (get_man h2 second) as [m1|]; [|discriminate]. cbv zeta in E3. destruct (_ =? 1).
        - match type of E3 with match ?x with _ => _ end = _ => destruct x as [m3|]; [|discriminate] end.
          cbn [set_mans h_pfs] in E3. destruct (h_pfs h2 (mn_pf m3)); injection E3 as <-; reflexivity.
        - injection E3 as <-. reflexivity. }
      assert (I3 : In (vf_ptr v) (slots h3)). { rewrite S3. unfold h2. rewrite U, S1. exact I. }
      split; [|split; [reflexivity|exact I3]].
      eapply qstep_trans; [exact Q1|]. eapply qstep_trans; [apply Q|]. eapply qstep_trans; [eapply q_incr; exact E3|].
      apply q_patch. exact I3.
  - injection E as <- <- <-. split; [apply Q|]. split; [reflexivity|]. rewrite U. exact I.
Qed.

Lemma q_rm_loop : forall l k o k', rm_hookman_loop k o l = Some k' -> qstep (c_h k) (c_h k').
Proof.
  induction l as [|vo l IH]; intros k o k' E; cbn [rm_hookman_loop] in E; [injection E as <-; apply qstep_refl|].
  destruct (get_vfn (c_h k) vo) as [v|] eqn:Gv; [|discriminate].
  assert (I : In (vf_ptr v) (slots (c_h k))). { apply in_map. apply (find_some _ _ Gv). }
  destruct (hookman_removed (c_h k) v o) as [[[h1 v'] r]|] eqn:E1; [|discriminate].
  destruct (q_hookman_removed _ _ _ _ _ _ I E1) as (Q1 & V1 & I1). destruct r.
  - eapply qstep_trans; [exact Q1|]. apply (IH _ _ _ E).
  - match type of E with match ?x with _ => _ end = _ => destruct x as [k2|] eqn:E2; [|discriminate] end.
    eapply qstep_trans; [exact Q1|]. eapply qstep_trans; [|apply (IH _ _ _ E)].
    assert (Q : qstep h1 (set_ids h1 (id_remove_all (h_ids h1) (vf_ptr v)))) by qs.
    eapply qstep_trans; [exact Q|]. eapply (q_revert (Core _ _ _)); [|exact E2]. cbn [c_h]. rewrite V1. exact I1.
Qed.
Lemma q_remove_hookman : forall k o k', remove_hookman k o = Some k' -> qstep (c_h k) (c_h k').
Proof.
  intros k o k' E. unfold remove_hookman in E.
  match type of E with match ?x with _ => _ end = _ => destruct x as [k2|] eqn:E2; [|discriminate] end.
  injection E as <-. cbn [c_h]. eapply qstep_trans; [eapply q_rm_loop; eauto|]. qs.
Qed.
Lemma q_remove_hookman_pf : forall k p f k', remove_hookman_pf k p f = Some k' -> qstep (c_h k) (c_h k').
Proof.
  intros k p f k' E. unfold remove_hookman_pf in E. destruct (find _ _); [eapply q_remove_hookman; eauto|].
  injection E as <-. apply qstep_refl.
Qed.
Lemma q_remove_hookmans : forall l k p k', remove_hookmans k p l = Some k' -> qstep (c_h k) (c_h k').
Proof.
  induction l as [|o l IH]; intros k p k' E; cbn in E; [injection E as <-; apply qstep_refl|].
  destruct (get_man (c_h k) o) as [m|]; [|discriminate]. destruct (Z.eqb _ _); [|eauto].
  destruct (remove_hookman k o) as [k1|] eqn:E1; [|discriminate]. eapply qstep_trans; [eapply q_remove_hookman; eauto|eauto].
Qed.
Lemma q_unload : forall k p k', unload_hooks k p = Some k' -> qstep (c_h k) (c_h k').
Proof.
  intros k p k' E. unfold unload_hooks in E. destruct (remove_ids k _) as [[k1 b]|] eqn:E1; [|discriminate].
  eapply qstep_trans; [eapply q_remove_ids; eauto|eapply q_remove_hookmans; eauto].
Qed.
Lemma q_shutdown : forall k k', complete_shutdown k = Some k' -> qstep (c_h k) (c_h k').
Proof.
  intros k k' E. unfold complete_shutdown in E. destruct (remove_ids k _) as [[k1 b]|] eqn:E1; [|discriminate].
  injection E as <-. eapply q_remove_ids; eauto.
Qed.
Lemma q_reconfigure : forall k p f vo vi k', reconfigure k p f vo vi = Some k' -> qstep (c_h k) (c_h k').
Proof.
  intros k p f vo vi k' E. unfold reconfigure in E. destruct (remove_hookman_pf k p f) as [k1|] eqn:E1; [|discriminate].
  pose proof (q_remove_hookman_pf _ _ _ _ E1) as Q. destruct (h_pfs _ f); injection E as <-; [|exact Q].
  eapply qstep_trans; [exact Q|]. cbn [c_h]. qs.
Qed.

(** AddHook writes only its slot and destroys nothing. *)
Definition tstep (P : Z -> Prop) (h h' : hs) : Prop :=
  exists l, h_tr h' = l ++ h_tr h /\ Forall (patch_on P) l /\ deleted l = [].
Lemma tstep_refl : forall P h, tstep P h h.
Proof. intros P h. exists []. auto. Qed.
Lemma tstep_trans : forall P a b c, tstep P a b -> tstep P b c -> tstep P a c.
Proof.
  intros P a b c (l1 & E1 & F1 & D1) (l2 & E2 & F2 & D2). exists (l2 ++ l1). split; [rewrite E2, E1, app_assoc; reflexivity|].
  split; [apply Forall_app; auto|]. rewrite deleted_app, D1, D2. reflexivity.
Qed.
Lemma tstep_same : forall (P : Z -> Prop) h h', h_tr h' = h_tr h -> tstep P h h'.
Proof. intros P h h' E. exists []. auto. Qed.
Lemma tstep_obs : forall (P : Z -> Prop) h h' o, h_tr h' = o :: h_tr h ->
  match o with OPatch s _ => P s | ODelete _ => False | _ => True end -> tstep P h h'.
Proof.
  intros P h h' o E H. exists [o]. split; [exact E|]. split.
  - constructor; [|constructor]. destruct o; cbn; auto.
  - destruct o; cbn; auto; contradiction.
Qed.
Lemma t_register : forall P h o h', mn_register h o = Some h' -> tstep P h h'.
Proof.
  intros P h o h' E. unfold mn_register in E. destruct (get_man h o) as [m|]; [|discriminate].
  destruct (h_pfs h (mn_pf m)); injection E as <-; (eapply tstep_obs; [reflexivity|exact I]).
Qed.
Lemma t_unregister : forall P h o h', mn_unregister h o = Some h' -> tstep P h h'.
Proof.
  intros P h o h' E. unfold mn_unregister in E. destruct (get_man h o) as [m|]; [|discriminate].
  destruct (h_pfs h (mn_pf m)); injection E as <-; (eapply tstep_obs; [reflexivity|exact I]).
Qed.
Lemma t_incr : forall P h o v h', incr_ref h o v = Some h' -> tstep P h h'.
Proof.
  intros P h o v h' E. unfold incr_ref in E. destruct (get_man h o) as [m|]; [|discriminate]. cbv zeta in E.
  match type of E with (if _ then mn_register ?x _ else _) = _ => assert (Q : tstep P h x) by (apply tstep_same; reflexivity) end.
  destruct (_ =? 1); [|injection E as <-; exact Q]. eapply tstep_trans; [exact Q|]. eapply t_register; eauto.
Qed.
Lemma t_decr : forall P h o v h', decr_ref h o v = Some h' -> tstep P h h'.
Proof.
  intros P h o v h' E. unfold decr_ref in E. destruct (get_man h o) as [m|]; [|discriminate]. cbv zeta in E.
  match type of E with (if _ then mn_unregister ?x _ else _) = _ => assert (Q : tstep P h x) by (apply tstep_same; reflexivity) end.
  destruct (_ =? 0); [|injection E as <-; exact Q]. eapply tstep_trans; [exact Q|]. eapply t_unregister; eauto.
Qed.
Lemma t_add_hookman : forall (P : Z -> Prop) h vo o h', (forall v, get_vfn h vo = Some v -> P (vf_ptr v)) -> add_hookman h vo o = Some h' -> tstep P h h'.
Proof.
  intros P h vo o h' Hv E. unfold add_hookman in E. destruct (get_vfn h vo) as [v|]; [|discriminate].
  destruct (get_man h o) as [m|]; [|discriminate]. destruct (Z.eqb _ _); [injection E as <-; apply tstep_refl|].
  destruct (memb _ _); [injection E as <-; apply tstep_refl|]. destruct (insert_man _ _ _ _) as [l|]; [|discriminate].
  cbv zeta in E. destruct l as [|first rest]; [discriminate|].
  match type of E with (if _ then match incr_ref ?x _ _ with _ => _ end else _) = _ =>
    set (h1 := x) in E; assert (Q : tstep P h h1) by (apply tstep_same; reflexivity) end.
  destruct (first =? o); [|injection E as <-; exact Q].
  destruct (incr_ref h1 o vo) as [h2|] eqn:E2; [|discriminate].
  match type of E with match ?x with _ => _ end = _ => destruct x as [h3|] eqn:E3; [|discriminate] end.
  injection E as <-. eapply tstep_trans; [exact Q|]. eapply tstep_trans; [eapply t_incr; eauto|].
  apply (tstep_trans P h2 h3).
  - destruct rest; [injection E3 as <-; apply tstep_refl|eapply t_decr; eauto].
  - eapply tstep_obs; [reflexivity|]. cbn. apply Hv. reflexivity.
Qed.

Lemma t_add_hook : forall m0 h ts plug mode ifp offs pf handler post h' id info,
  WF m0 (Core h (Cs [] 0) ts) -> pf_valid h pf = Some info ->
  add_hook h plug mode ifp offs pf handler post = Some (h', id) ->
  tstep (eq (fst (hook_target h mode ifp offs info))) h h'.
Proof.
  intros m0 h ts plug mode ifp offs pf handler post h' id info [M H N T] Ef E. cbn [c_h c_tasks] in *. unfold add_hook in E. rewrite Ef in E.
  match type of E with (if ?x then _ else _) = _ => destruct x; [discriminate|] end.
  destruct (hook_target h mode ifp offs info) as [slot adj]. cbn [fst].
  destruct (get_vfnptr_spec m0 h ts slot M H N T) as (h1 & vo & v & E1 & Hg1 & Ep1 & _).
  assert (Q1 : tstep (eq slot) h h1).
  { unfold get_vfnptr in E1. destruct (find _ _); [injection E1 as <- <-; apply tstep_refl|].
    destruct (odd_code _); injection E1 as <- <-.
    - eapply tstep_obs; [reflexivity|exact I].
    - apply tstep_same. reflexivity. }
  rewrite E1 in E. destruct (get_hookman h1 plug pf info) as [h2 mo] eqn:E2.
  assert (Q2 : tstep (eq slot) h1 h2 /\ h_vfns h2 = h_vfns h1).
  { unfold get_hookman in E2. destruct (find _ _); injection E2 as <- <-; split; try reflexivity; [apply tstep_refl|apply tstep_same; reflexivity]. }
  destruct Q2 as [Q2 V2]. destruct (add_hookman h2 vo mo) as [h3|] eqn:E3; [|discriminate].
  assert (Q3 : tstep (eq slot) h2 h3).
  { apply (t_add_hookman (eq slot) h2 vo mo h3); [|exact E3]. intros w Hw. unfold get_vfn in *. rewrite V2 in Hw. congruence. }
  destruct (get_iface h3 vo adj) as [[h4 io]|] eqn:E4; [|discriminate].
  assert (Q4 : tstep (eq slot) h3 h4).
  { unfold get_iface in E4. destruct (get_vfn h3 vo); [|discriminate]. destruct (find _ _); injection E4 as <- <-;
    [apply tstep_refl|apply tstep_same; reflexivity]. }
  destruct (id_new _ _ _) as [ids' n]. injection E as <- _.
  eapply tstep_trans; [exact Q1|]. eapply tstep_trans; [exact Q2|]. eapply tstep_trans; [exact Q3|]. eapply tstep_trans; [exact Q4|].
  apply tstep_same. reflexivity.
Qed.
