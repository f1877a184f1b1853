(** C25: prototype compatibility. *)
From Coq Require Import ZArith List Bool Lia.
From Verif Require Import ProtoModel ProtoSpec ProtoProofs.
Import ListNotations.
Open Scope Z_scope.

(** Every description that Fill accepts can be compared with every other one
    without reading outside an array, and the comparison decides exactly
    [compatible]. *)
Theorem C25_compat_decides : forall ra rb a b,
  fill ra = Some a -> fill rb = Some b ->
  exists r, proto_eq a b = Some r /\ (r = true <-> compatible a b).
Proof.
  intros ra rb a b Ha Hb. apply fill_wf in Ha. apply fill_wf in Hb.
  destruct (proto_eq_total a b Ha Hb) as [r Hr]. exists r. split; [exact Hr|].
  rewrite <- (proto_eq_spec a b Ha Hb), Hr. split; congruence.
Qed.
Print Assumptions C25_compat_decides.

Theorem C25_compat_symmetric : forall ra rb a b,
  fill ra = Some a -> fill rb = Some b -> proto_eq a b = proto_eq b a.
Proof.
  intros ra rb a b Ha Hb. apply fill_wf in Ha. apply fill_wf in Hb.
  destruct (proto_eq_total a b Ha Hb) as [r Hr].
  destruct (proto_eq_total b a Hb Ha) as [r' Hr']. rewrite Hr, Hr'. f_equal.
  destruct r, r'; try reflexivity.
  - apply proto_eq_spec in Hr; auto. apply compatible_sym in Hr.
    apply proto_eq_spec in Hr; auto. congruence.
  - apply proto_eq_spec in Hr'; auto. apply compatible_sym in Hr'.
    apply proto_eq_spec in Hr'; auto. congruence.
Qed.
Print Assumptions C25_compat_symmetric.

Theorem C25_compat_reflexive : forall ra a,
  fill ra = Some a -> 0 <= pr_version a -> proto_eq a a = Some true.
Proof.
  intros ra a Ha Hv. apply fill_wf in Ha. apply proto_eq_spec; auto using compatible_refl.
Qed.
Print Assumptions C25_compat_reflexive.

(** Equated prototypes have the same number of parameters and pairwise equal
    sizes when passed. *)
Theorem C25_compat_layout : forall ra rb a b,
  fill ra = Some a -> fill rb = Some b -> proto_eq a b = Some true ->
  length (pr_params a) = length (pr_params b) /\
  same_passed_size (pr_ret a) (pr_ret b) /\
  forall i p q, nth_error (pr_params a) i = Some p -> nth_error (pr_params b) i = Some q ->
                same_passed_size p q.
Proof.
  intros ra rb a b Ha Hb H. apply fill_wf in Ha. apply fill_wf in Hb.
  apply proto_eq_spec in H; auto. destruct H as (_&_&_&H1&H2).
  split; [exact (Forall2_len _ _ _ H2)|]. split; [exact H1|].
  clear - H2. induction H2 as [|x y l l' Hxy _ IH]; intros i p q Hp Hq.
  - destruct i; discriminate.
  - destruct i; cbn in Hp, Hq; [inversion Hp; inversion Hq; subst; apply Hxy | eauto].
Qed.
Print Assumptions C25_compat_layout.

Theorem C25_exact_equivalence : forall ra rb rc a b c,
  fill ra = Some a -> fill rb = Some b -> fill rc = Some c ->
  exactly_equal a a = Some true /\
  exactly_equal a b = exactly_equal b a /\
  (exactly_equal a b = Some true -> exactly_equal b c = Some true -> exactly_equal a c = Some true) /\
  (exactly_equal a b = Some true <-> identical a b).
Proof.
  intros ra rb rc a b c Ha Hb Hc.
  apply fill_wf in Ha. apply fill_wf in Hb. apply fill_wf in Hc.
  split; [|split; [|split]].
  - apply exactly_equal_spec; auto using identical_refl.
  - destruct (exactly_equal_total a b Ha Hb) as [r Hr].
    destruct (exactly_equal_total b a Hb Ha) as [r' Hr']. rewrite Hr, Hr'. f_equal.
    destruct r, r'; try reflexivity.
    + apply exactly_equal_spec in Hr; auto. apply identical_sym in Hr.
      apply exactly_equal_spec in Hr; auto. congruence.
    + apply exactly_equal_spec in Hr'; auto. apply identical_sym in Hr'.
      apply exactly_equal_spec in Hr'; auto. congruence.
  - rewrite !exactly_equal_spec by assumption. apply identical_trans.
  - apply exactly_equal_spec; assumption.
Qed.
Print Assumptions C25_exact_equivalence.

Theorem C25_exact_implies_compat : forall ra rb a b,
  fill ra = Some a -> fill rb = Some b -> 0 <= pr_version a ->
  exactly_equal a b = Some true -> proto_eq a b = Some true.
Proof.
  intros ra rb a b Ha Hb Hv H. apply fill_wf in Ha. apply fill_wf in Hb.
  apply exactly_equal_spec in H; auto. apply proto_eq_spec; auto using identical_compatible.
Qed.
Print Assumptions C25_exact_implies_compat.

(** Fill keeps what the description says: number, convention, sizes. *)
Theorem C25_fill_keeps : forall r p,
  fill (Some r) = Some p -> 0 <= pr_version p ->
  Z.of_nat (length (pr_params p)) = raw_num r /\ pr_conv p = raw_conv r /\
  pi_size (pr_ret p) = rp_size (raw_ret r) /\
  forall i q, nth_error (pr_params p) i = Some q ->
    exists s, nth_error (raw_params r) (S i) = Some s /\ pi_size q = rp_size s /\ pi_type q = rp_type s /\
              (pi_flags q = rp_flags s \/ (pr_version p = 0 /\ rp_flags s = 0 /\ pi_flags q = PassFlag_ByVal)).
Proof.
  assert (forall arr n i l, fill_v1 arr i n = Some l -> forall j q, nth_error l j = Some q ->
     exists s, nth_error arr (i + j) = Some s /\ q = mk_pass (rp_size s) (rp_type s) (get_real_flags s) no_pass2) as L1.
  { intros arr n. induction n as [|n IH]; intros i l; cbn [fill_v1].
    - intros [= <-] [|j] q; discriminate.
    - destruct (nth_error arr i) as [s|] eqn:Es; [|discriminate].
      destruct (fill_v1 arr (S i) n) as [l'|] eqn:E; [|discriminate].
      intros [= <-] [|j] q Hq; cbn in Hq.
      + inversion Hq. rewrite Nat.add_0_r. eauto.
      + destruct (IH _ _ E j q Hq) as [s' [H1 H2]]. exists s'. rewrite <- H1, Nat.add_succ_r. auto. }
  assert (forall arr arr2 n i l, fill_v2 arr arr2 i n = Some l -> forall j q, nth_error l j = Some q ->
     exists s r2, nth_error arr (i + j) = Some s /\ q = mk_pass (rp_size s) (rp_type s) (rp_flags s) r2) as L2.
  { intros arr arr2 n. induction n as [|n IH]; intros i l; cbn [fill_v2].
    - intros [= <-] [|j] q; discriminate.
    - destruct (nth_error arr i) as [s|] eqn:Es; [|discriminate].
      destruct (nth_error arr2 i) as [s2|] eqn:Es2; [|discriminate].
      destruct (fill_v2 arr arr2 (S i) n) as [l'|] eqn:E; [|discriminate].
      intros [= <-] [|j] q Hq; cbn in Hq.
      + inversion Hq. rewrite Nat.add_0_r. eauto.
      + destruct (IH _ _ E j q Hq) as [s' [r2 [H1 H2]]]. exists s', r2. rewrite <- H1, Nat.add_succ_r. auto. }
  intros r p H Hv. pose proof (fill_wf _ _ H) as Hwf. unfold proto_wf in Hwf. revert H.
  unfold fill. destruct (nth_error (raw_params r) 0) as [d|]; [|discriminate].
  destruct (rp_size d =? 0).
  - destruct (raw_num r <? 0) eqn:Hn; [discriminate|].
    destruct (fill_v1 _ _ _) as [l|] eqn:E; [|discriminate].
    intros [= <-]. cbn in *. repeat split; auto.
    intros i q Hq. destruct (L1 _ _ _ _ E i q Hq) as [s [H1 ->]]. exists s. cbn. split; [exact H1|].
    repeat split; auto. unfold get_real_flags. destruct (Z.eqb_spec (rp_flags s) 0); auto.
  - destruct (rp_size d =? 1).
    + destruct (raw_num r <? 0) eqn:Hn; [discriminate|].
      destruct (fill_v2 _ _ _ _) as [l|] eqn:E; [|discriminate].
      intros [= <-]. cbn in *. repeat split; auto.
      intros i q Hq. destruct (L2 _ _ _ _ _ E i q Hq) as [s [r2 [H1 ->]]]. exists s. cbn. auto.
    + intros [= <-]. cbn in Hv. lia.
Qed.
Print Assumptions C25_fill_keeps.

(** Finding: compatibility is not transitive (unknown kinds agree with
    everything of the same size). *)
Theorem C25_compat_transitive_refuted : exists ra rb rc a b c,
  fill ra = Some a /\ fill rb = Some b /\ fill rc = Some c /\
  proto_eq a b = Some true /\ proto_eq b c = Some true /\ proto_eq a c = Some false.
Proof.
  pose (mk := fun ty => Some (RawProto 1 (RawPass 0 0 0) [RawPass 1 0 0; RawPass 4 ty 1] 0
                                (RawPass2 0 0 0 0) [RawPass2 0 0 0 0; RawPass2 0 0 0 0])).
  exists (mk 1), (mk 0), (mk 2). do 3 eexists.
  repeat split; vm_compute; reflexivity.
Qed.
Print Assumptions C25_compat_transitive_refuted.

(** Finding: Fill(NULL) (SetInfo with a NULL prototype) dereferences NULL. *)
Theorem C25_fill_null_refuted : fill None = None.
Proof. reflexivity. Qed.
Print Assumptions C25_fill_null_refuted.

(** Non-vacuity. *)
Example C25_ex_v1 :
  let r := Some (RawProto 2 (RawPass 4 1 0) [RawPass 0 0 0; RawPass 4 1 0; RawPass 16 3 2] 1
                   (RawPass2 0 0 0 0) []) in
  exists a, fill r = Some a /\ pr_version a = 0 /\ length (pr_params a) = 2%nat
            /\ proto_eq a a = Some true /\ exactly_equal a a = Some true.
Proof. eexists. repeat split; vm_compute; reflexivity. Qed.

Example C25_ex_v1_v2_compat :
  let r1 := Some (RawProto 1 (RawPass 4 1 0) [RawPass 0 0 0; RawPass 4 1 0] 0 (RawPass2 0 0 0 0) []) in
  let r2 := Some (RawProto 1 (RawPass 4 1 1) [RawPass 1 0 0; RawPass 4 1 1] 1
                    (RawPass2 0 0 0 0) [RawPass2 0 0 0 0; RawPass2 0 0 0 0]) in
  exists a b, fill r1 = Some a /\ fill r2 = Some b /\ proto_eq a b = Some true
              /\ exactly_equal a b = Some false.
Proof. do 2 eexists. repeat split; vm_compute; reflexivity. Qed.
