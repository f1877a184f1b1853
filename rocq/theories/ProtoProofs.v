From Coq Require Import ZArith List Bool Lia.
From Verif Require Import ProtoModel ProtoSpec.
Import ListNotations.
Open Scope Z_scope.

(** Prototypes produced by Fill are consistent. *)
Definition proto_wf (p : proto) : Prop :=
  pr_num p = Z.of_nat (length (pr_params p)).

Lemma fill_v1_length arr n : forall i l, fill_v1 arr i n = Some l -> length l = n.
Proof.
  induction n as [|n IH]; intros i l; cbn [fill_v1].
  - intros H; inversion H; reflexivity.
  - destruct (nth_error arr i) as [r|]; [|discriminate].
    destruct (fill_v1 arr (S i) n) as [l'|] eqn:E; [|discriminate].
    intros H; inversion H; cbn; f_equal; eapply IH; exact E.
Qed.

Lemma fill_v2_length arr arr2 n : forall i l, fill_v2 arr arr2 i n = Some l -> length l = n.
Proof.
  induction n as [|n IH]; intros i l; cbn [fill_v2].
  - intros H; inversion H; reflexivity.
  - destruct (nth_error arr i) as [r|]; [|discriminate].
    destruct (nth_error arr2 i) as [r2|]; [|discriminate].
    destruct (fill_v2 arr arr2 (S i) n) as [l'|] eqn:E; [|discriminate].
    intros H; inversion H; cbn; f_equal; eapply IH; exact E.
Qed.

Lemma fill_wf r p : fill r = Some p -> proto_wf p.
Proof.
  unfold fill, proto_wf. destruct r as [r|]; [|discriminate].
  destruct (nth_error (raw_params r) 0) as [d|]; [|discriminate].
  destruct (rp_size d =? 0).
  - destruct (raw_num r <? 0) eqn:Hn; [discriminate|].
    destruct (fill_v1 _ _ _) as [l|] eqn:E; [|discriminate].
    intros H; inversion H; cbn. apply fill_v1_length in E. rewrite E. lia.
  - destruct (rp_size d =? 1).
    + destruct (raw_num r <? 0) eqn:Hn; [discriminate|].
      destruct (fill_v2 _ _ _ _) as [l|] eqn:E; [|discriminate].
      intros H; inversion H; cbn. apply fill_v2_length in E. rewrite E. lia.
    + intros H; inversion H; reflexivity.
Qed.

Lemma byref_testbit f : (Z.land f PassFlag_ByRef =? 0) = negb (Z.testbit f 1).
Proof.
  unfold PassFlag_ByRef. change 2 with (2 ^ 1).
  destruct (Z.testbit f 1) eqn:E; cbn [negb].
  - apply Z.eqb_neq. intros H.
    assert (Z.testbit (Z.land f (2^1)) 1 = true) as H1.
    { rewrite Z.land_spec, E. reflexivity. }
    rewrite H in H1. discriminate.
  - apply Z.eqb_eq. apply Z.bits_inj'. intros n Hn.
    rewrite Z.land_spec, Z.bits_0. rewrite Z.pow2_bits_eqb by lia.
    destruct (Z.eqb_spec 1 n) as [<-|]; [rewrite E; reflexivity | apply andb_false_r].
Qed.

Lemma passed_size_real p n : passed_size p n <-> n = get_real_size p.
Proof.
  unfold passed_size, passed_by_reference, get_real_size, ptr_size.
  rewrite byref_testbit. destruct (Z.testbit (pi_flags p) 1); cbn [negb]; intuition congruence.
Qed.

Lemma same_passed_size_spec p q :
  same_passed_size p q <-> get_real_size p = get_real_size q.
Proof.
  unfold same_passed_size. setoid_rewrite passed_size_real. split.
  - intros [n [-> H]]; exact H.
  - intros H; eexists; split; [reflexivity | exact H].
Qed.

Lemma param_compat_spec p q : param_compat p q = true <-> params_agree p q.
Proof.
  unfold param_compat, params_agree. rewrite same_passed_size_spec. unfold PassType_Unknown.
  destruct (Z.eqb_spec (get_real_size p) (get_real_size q)); cbn [negb]; [|intuition congruence].
  destruct (Z.eqb_spec (pi_type p) 0); destruct (Z.eqb_spec (pi_type q) 0); cbn [negb andb];
    try tauto.
  destruct (Z.eqb_spec (pi_type p) (pi_type q)); cbn [negb]; [|intuition congruence].
  destruct (Z.eqb_spec (pi_flags p) (pi_flags q)); cbn [negb]; intuition congruence.
Qed.

Lemma passinfo_eqb_spec p q : passinfo_eqb p q = true <-> same_but_copyctor p q.
Proof.
  unfold passinfo_eqb, same_but_copyctor.
  rewrite !andb_true_iff, !Z.eqb_eq. destruct p, q; cbn. split.
  - intros H; exists pi_copy0; repeat match goal with H : _ /\ _ |- _ => destruct H end; congruence.
  - intros [c H]; inversion H; tauto.
Qed.

Lemma params_loop_spec (test : passinfo -> passinfo -> bool) (R : passinfo -> passinfo -> Prop) :
  (forall p q, test p q = true <-> R p q) ->
  forall l1 l2 pre1 pre2,
    length pre1 = length pre2 -> length l1 = length l2 ->
    (params_loop test (pre1 ++ l1) (pre2 ++ l2) (length pre1) (length l1) = Some true
       <-> Forall2 R l1 l2) /\
    params_loop test (pre1 ++ l1) (pre2 ++ l2) (length pre1) (length l1) <> None.
Proof.
  intros HR l1. induction l1 as [|a l1 IH]; intros l2 pre1 pre2 Hpre Hlen.
  - destruct l2; [|discriminate]. cbn. split; [split; auto|discriminate].
  - destruct l2 as [|b l2]; [discriminate|]. cbn [length params_loop].
    rewrite nth_error_app2 by lia. rewrite Nat.sub_diag. cbn [nth_error].
    rewrite (nth_error_app2 pre2) by lia. rewrite Hpre, Nat.sub_diag. cbn [nth_error].
    destruct (test a b) eqn:E.
    + specialize (IH l2 (pre1 ++ [a]) (pre2 ++ [b])).
      rewrite !app_length, <- !app_assoc in IH. cbn [length app] in IH.
      rewrite Hpre, !Nat.add_1_r in IH. destruct IH as [IH1 IH2]; [lia|cbn in Hlen; lia|].
      split; [|exact IH2]. rewrite IH1. split.
      * intros H; constructor; [apply HR; exact E|exact H].
      * intros H; inversion H; assumption.
    + split; [|discriminate]. split; [discriminate|].
      intros H; inversion H; subst. apply HR in H3. congruence.
Qed.

Lemma Forall2_len {A B} (R : A -> B -> Prop) l1 l2 : Forall2 R l1 l2 -> length l1 = length l2.
Proof. induction 1; cbn; congruence. Qed.

Lemma params_loop_wf test R (a b : proto) :
  (forall p q, test p q = true <-> R p q) ->
  proto_wf a -> proto_wf b -> pr_num a = pr_num b ->
  exists r, params_loop test (pr_params a) (pr_params b) 0 (Z.to_nat (pr_num a)) = Some r
            /\ (r = true <-> Forall2 R (pr_params a) (pr_params b)).
Proof.
  unfold proto_wf. intros HR Ha Hb Hn.
  rewrite Ha, Nat2Z.id.
  destruct (params_loop_spec test R HR (pr_params a) (pr_params b) [] []) as [H1 H2];
    [reflexivity|lia|]. cbn [app length] in *.
  destruct (params_loop test (pr_params a) (pr_params b) 0 (length (pr_params a))) as [r|];
    [|congruence].
  exists r; split; [reflexivity|]. rewrite <- H1. split; congruence.
Qed.

Lemma proto_eq_total a b : proto_wf a -> proto_wf b -> exists r, proto_eq a b = Some r.
Proof.
  intros Ha Hb. unfold proto_eq.
  destruct (_ || _); [eauto|].
  destruct (Z.eqb_spec (pr_num a) (pr_num b)) as [Hn|]; cbn [negb]; [|eauto].
  destruct (_ && _); [eauto|]. destruct (negb _); [eauto|].
  destruct (params_loop_wf param_compat _ a b param_compat_spec Ha Hb Hn) as [r [H _]]. eauto.
Qed.

Lemma proto_eq_spec a b : proto_wf a -> proto_wf b ->
  (proto_eq a b = Some true <-> compatible a b).
Proof.
  intros Ha Hb. unfold proto_eq, compatible.
  destruct (Z.ltb_spec (pr_version a) 0); cbn [orb].
  { split; [discriminate|lia]. }
  destruct (Z.ltb_spec (pr_version b) 0).
  { split; [discriminate|lia]. }
  destruct (Z.eqb_spec (pr_num a) (pr_num b)) as [Hn|Hn]; cbn [negb].
  2: { split; [discriminate|]. intros (_&_&_&_&H2). apply Forall2_len in H2.
       unfold proto_wf in *. lia. }
  rewrite same_passed_size_spec. unfold conv_agree, CallConv_Unknown.
  destruct (negb (pr_conv a =? 0) && negb (pr_conv b =? 0) && negb (pr_conv a =? pr_conv b)) eqn:Ec.
  { rewrite !andb_true_iff, !negb_true_iff, !Z.eqb_neq in Ec. split; [discriminate|]. intuition congruence. }
  destruct (Z.eqb_spec (get_real_size (pr_ret a)) (get_real_size (pr_ret b))) as [Hr|Hr]; cbn [negb].
  2: { split; [discriminate|tauto]. }
  destruct (params_loop_wf param_compat _ a b param_compat_spec Ha Hb Hn) as [r [Hl Hl2]].
  rewrite Hl.
  assert (pr_conv a = 0 \/ pr_conv b = 0 \/ pr_conv a = pr_conv b) as Hc.
  { destruct (Z.eqb_spec (pr_conv a) 0); [tauto|]. destruct (Z.eqb_spec (pr_conv b) 0); [tauto|].
    destruct (Z.eqb_spec (pr_conv a) (pr_conv b)); [tauto|]. discriminate. }
  split.
  - intros [= ->]. intuition.
  - intros (_&_&_&_&H3). f_equal. tauto.
Qed.

Lemma exactly_equal_total a b : proto_wf a -> proto_wf b -> exists r, exactly_equal a b = Some r.
Proof.
  intros Ha Hb. unfold exactly_equal.
  destruct (Z.eqb_spec (pr_num a) (pr_num b)) as [Hn|]; cbn [negb].
  2: { rewrite orb_true_r. cbn [orb]. eauto. }
  destruct (_ || _); [eauto|].
  destruct (params_loop_wf passinfo_eqb _ a b passinfo_eqb_spec Ha Hb Hn) as [r [H _]]. eauto.
Qed.

Lemma exactly_equal_spec a b : proto_wf a -> proto_wf b ->
  (exactly_equal a b = Some true <-> identical a b).
Proof.
  intros Ha Hb. unfold exactly_equal, identical.
  rewrite <- passinfo_eqb_spec.
  destruct (Z.eqb_spec (pr_version a) (pr_version b)); cbn [negb orb].
  2: split; [discriminate|tauto].
  destruct (Z.eqb_spec (pr_num a) (pr_num b)) as [Hn|Hn]; cbn [negb orb].
  2: { split; [discriminate|]. intros (_&_&_&H2). apply Forall2_len in H2.
       unfold proto_wf in *. lia. }
  destruct (Z.eqb_spec (pr_conv a) (pr_conv b)); cbn [negb orb].
  2: split; [discriminate|tauto].
  destruct (passinfo_eqb (pr_ret a) (pr_ret b)); cbn [negb].
  2: { split; [discriminate|]. intros (_&_&H&_); discriminate. }
  destruct (params_loop_wf passinfo_eqb _ a b passinfo_eqb_spec Ha Hb Hn) as [r [Hl Hl2]].
  rewrite Hl. split.
  - intros [= ->]. intuition.
  - intros (_&_&_&H3). f_equal. tauto.
Qed.

Lemma params_agree_sym p q : params_agree p q -> params_agree q p.
Proof.
  unfold params_agree. rewrite !same_passed_size_spec. intuition congruence.
Qed.

Lemma compatible_sym a b : compatible a b -> compatible b a.
Proof.
  unfold compatible, conv_agree. rewrite !same_passed_size_spec. intros (H1&H2&H3&H4&H5).
  repeat split; try assumption; [intuition congruence|congruence|].
  induction H5; constructor; auto using params_agree_sym.
Qed.

Lemma compatible_refl a : 0 <= pr_version a -> compatible a a.
Proof.
  unfold compatible, conv_agree. rewrite same_passed_size_spec. intros H.
  repeat split; auto.
  induction (pr_params a); constructor; auto.
  unfold params_agree. rewrite same_passed_size_spec. auto.
Qed.

Lemma sbc_refl p : same_but_copyctor p p.
Proof. exists (pi_copy p). destruct p; reflexivity. Qed.
Lemma sbc_sym p q : same_but_copyctor p q -> same_but_copyctor q p.
Proof. intros [c ->]. exists (pi_copy p). destruct p; reflexivity. Qed.
Lemma sbc_trans p q r : same_but_copyctor p q -> same_but_copyctor q r -> same_but_copyctor p r.
Proof. intros [c ->] [d ->]. exists d. reflexivity. Qed.

Lemma identical_refl a : identical a a.
Proof.
  repeat split; auto using sbc_refl. induction (pr_params a); constructor; auto using sbc_refl.
Qed.
Lemma identical_sym a b : identical a b -> identical b a.
Proof.
  intros (H1&H2&H3&H4). repeat split; auto using sbc_sym.
  induction H4; constructor; auto using sbc_sym.
Qed.
Lemma identical_trans a b c : identical a b -> identical b c -> identical a c.
Proof.
  intros (H1&H2&H3&H4) (K1&K2&K3&K4). repeat split; try congruence; eauto using sbc_trans.
  clear - H4 K4. revert K4. generalize (pr_params c). induction H4; intros l0 K4; inversion K4; subst;
    constructor; eauto using sbc_trans.
Qed.

Lemma sbc_agree p q : same_but_copyctor p q -> params_agree p q.
Proof.
  intros [c ->]. unfold params_agree. rewrite same_passed_size_spec. cbn. tauto.
Qed.

Lemma identical_compatible a b : identical a b -> 0 <= pr_version a -> compatible a b.
Proof.
  intros (H1&H2&H3&H4) Hv. unfold compatible, conv_agree. repeat split; try congruence; try lia; auto.
  - apply sbc_agree in H3. destruct H3; assumption.
  - induction H4; constructor; auto using sbc_agree.
Qed.
