(** Copying bytes and passing on the parameters. *)
From Coq Require Import List ZArith Bool Lia.
From Verif Require Import TrampModel ProtoModel GenModel Asm32Model Asm32Spec Asm32Proofs Mach32 Mach32Proofs
  Jit32Model Jit32Spec Jit32Steps Jit32Base Jit32PubProofs Jit32HookSpec Jit32HookList Jit32Arith Jit32Frame.
Import ListNotations.
Local Open Scope Z_scope.
Notation length := List.length.

(** byte by byte *)
Lemma low_byte v n j : 0 <= j < Z.of_nat n -> (v mod 256 ^ Z.of_nat n / 256 ^ j) mod 256 = (v / 256 ^ j) mod 256.
Proof.
  intros H. pose proof (Z.pow_pos_nonneg 256 j ltac:(lia) ltac:(lia)) as Pj.
  replace (Z.of_nat n) with (j + (1 + (Z.of_nat n - 1 - j))) by lia. rewrite Z.pow_add_r by lia.
  pose proof (Z.pow_pos_nonneg 256 (1 + (Z.of_nat n - 1 - j)) ltac:(lia) ltac:(lia)) as Pk.
  rewrite Z.rem_mul_r by lia. rewrite (Z.mul_comm (256 ^ j)), Z.div_add by lia.
  rewrite Z.div_small by (apply Z.mod_pos_bound; lia). rewrite Z.add_0_l.
  rewrite Z.pow_add_r, Z.pow_1_r by lia. pose proof (Z.pow_pos_nonneg 256 (Z.of_nat n - 1 - j) ltac:(lia) ltac:(lia)).
  rewrite Z.rem_mul_r by lia. rewrite (Z.mul_comm 256 ((v / 256 ^ j / 256) mod _)), Z.mod_add by lia. apply Z.mod_mod. lia.
Qed.
(** the lower bytes of a stored number *)
Lemma store_bytes m y n q v m' a : bytes_ok m' -> 0 <= y -> y + Z.of_nat q <= W32 -> 0 <= a -> a + Z.of_nat n <= W32 -> (n <= q)%nat ->
  v mod 256 ^ Z.of_nat n = ld m' a n -> forall j, 0 <= j < Z.of_nat n -> sto m y q v (y + j) = m' (a + j).
Proof.
  intros Hb Hy Hq Ha Hn Hle E j Hj. rewrite sto_in by lia. replace (y + j - y) with j by lia.
  rewrite <- (low_byte v n j Hj), E. apply ld_byte; try assumption; lia.
Qed.
Lemma ld_bytes m m' a b n : 0 <= a -> a + Z.of_nat n <= W32 -> 0 <= b -> b + Z.of_nat n <= W32 -> (forall j, 0 <= j < Z.of_nat n -> m (a + j) = m' (b + j)) ->
  ld m a n = ld m' b n.
Proof.
  revert a b. induction n as [|n IH]; intros a b Ha Hn Hb Hn' H; [reflexivity|]. cbn [ld].
  rewrite !w32_small by (unfold W32 in *; lia). f_equal; [specialize (H 0 ltac:(lia)); rewrite !Z.add_0_r in H; exact H|]. f_equal. apply IH; try lia.
  intros j Hj. replace (a + 1 + j) with (a + (1 + j)) by lia. replace (b + 1 + j) with (b + (1 + j)) by lia. apply H. lia.
Qed.

Section Push.
Variables (u : fpu) (base : Z) (env : nat -> Z -> st -> st) (PL : list asm) (O : Type).
Notation W := (W u base env PL O).
Notation sys := (Mach32Proofs.sys O).

(** ** rep movs *)
Lemma copy_W n s a c dx b sp bp A D si di f df m l tr (F : sys) :
  is s (R8 a c dx b sp bp A D) f df m -> df = false -> ld4 m sp = si -> ld4 m (sp + 4) = di -> Z.of_nat n < 2 ^ 31 ->
  0 <= sp -> sp + 8 < W32 -> 0 <= D -> D + Z.of_nat n < W32 -> 0 <= A -> A + Z.of_nat n < W32 ->
  A + Z.of_nat n <= D \/ D + Z.of_nat n <= A -> D + Z.of_nat n <= sp \/ sp + 8 <= D ->
  (forall s' c' m', is s' (R8 a c' dx b (sp + 8) bp si di) f false m' -> (forall x, ~ (D <= x < D + Z.of_nat n) -> m' x = m x) ->
     (forall j, 0 <= j < Z.of_nat n -> m' (D + j) = m (A + j)) -> W l s' tr F) ->
  W (BitwiseCopy_Do (Z.of_nat n) ++ l) s tr F.
Proof.
  intros I Hd L1 L2 Hn S1 S2 D1 D2 A1 A2 Dis Dsp K. subst df.
  pose proof (is_bytes _ _ _ _ _ I) as Hb.
  set (n4 := Z.of_nat n / 4). set (n1 := Z.of_nat n mod 4).
  assert (En : Z.of_nat n = 4 * n4 + n1) by (apply Z_div_mod_eq_full).
  assert (R1 : 0 <= n1 < 4) by (apply Z.mod_pos_bound; lia).
  assert (R4 : 0 <= n4) by (apply Z.div_pos; lia).
  unfold BitwiseCopy_Do. fold n4. fold n1. rewrite <- !app_assoc.
  (* the words *)
  assert (P1 : forall l2, (forall s' c' m', is s' (R8 a c' dx b sp bp (A + 4 * n4) (D + 4 * n4)) f false m' -> (forall x, ~ (D <= x < D + 4 * n4) -> m' x = m x) ->
     (forall j, 0 <= j < 4 * n4 -> m' (D + j) = m (A + j)) -> W l2 s' tr F) -> W ((if n4 =? 0 then [] else [AMov_Reg_Imm32 ECX n4; ARepMovsd]) ++ l2) s tr F).
  { intros l2 K2. destruct (Z.eqb_spec n4 0) as [E0|E0].
    - cbn [app]. apply (K2 s c m); [rewrite E0, !Z.add_0_r; exact I|reflexivity|]. intros j Hj. lia.
    - cbn [app]. unreg. eapply (X_movi _ _ _ _ _ _ _ _ _ _ _ _ _ I); [lia|unfold int32_ok; lia|]. regs_cbn. intros s1 I1.
      rewrite w32_small in I1 by (unfold W32; lia).
      eapply (X_movsd _ _ _ _ _ _ _ _ _ _ _ _ _ I1 (D + 4 * n4) (A + 4 * n4)); [reflexivity| | |]; regs_cbn; [apply w32_is; lia|apply w32_is; lia|].
      intros s2 I2. assert (Zn : Z.of_nat (Z.to_nat n4 * 4) = 4 * n4) by lia.
      eapply (K2 s2); [exact I2| |].
      + intros x Hx. apply movs_out; rewrite ?Zn; lia.
      + intros j Hj. rewrite movs_in by (rewrite ?Zn; auto; lia). f_equal. lia. }
  apply P1. clear P1. clear I. intros s1 c1 m1 I M1 M2. pose proof (is_bytes _ _ _ _ _ I) as Hb1.
  assert (P2 : forall l2, (forall s' c' m', is s' (R8 a c' dx b sp bp (A + Z.of_nat n) (D + Z.of_nat n)) f false m' -> (forall x, ~ (D <= x < D + Z.of_nat n) -> m' x = m x) ->
     (forall j, 0 <= j < Z.of_nat n -> m' (D + j) = m (A + j)) -> W l2 s' tr F) -> W ((if n1 =? 0 then [] else [AMov_Reg_Imm32 ECX n1; ARepMovsb]) ++ l2) s1 tr F).
  { intros l2 K2. destruct (Z.eqb_spec n1 0) as [E0|E0].
    - cbn [app]. apply (K2 s1 c1 m1).
      + replace (A + Z.of_nat n) with (A + 4 * n4) by lia. replace (D + Z.of_nat n) with (D + 4 * n4) by lia. exact I.
      + intros x Hx. apply M1. lia.
      + intros j Hj. apply M2. lia.
    - cbn [app]. unreg. eapply (X_movi _ _ _ _ _ _ _ _ _ _ _ _ _ I); [lia|unfold int32_ok; lia|]. regs_cbn. intros s2 I2.
      rewrite w32_small in I2 by (unfold W32; lia).
      eapply (X_movsb _ _ _ _ _ _ _ _ _ _ _ _ _ I2 (D + Z.of_nat n) (A + Z.of_nat n)); [reflexivity| | |]; regs_cbn; [apply w32_is; lia|apply w32_is; lia|].
      intros s3 I3. assert (Zn : Z.of_nat (Z.to_nat n1 * 1) = n1) by lia.
      eapply (K2 s3); [exact I3| |].
      + intros x Hx. rewrite movs_out by (rewrite ?Zn; lia). apply M1. lia.
      + intros j Hj. destruct (Z_lt_dec j (4 * n4)).
        * rewrite movs_out by (rewrite ?Zn; lia). apply M2. lia.
        * rewrite movs_in by (rewrite ?Zn; auto; lia). rewrite M1 by lia. f_equal. lia. }
  apply P2. clear P2 I. intros s2 c2 m2 I M3 M4. cbn [app].
  assert (Q1 : ld4 m2 sp = si) by (rewrite <- L1; apply ld4_ext; [lia|lia|]; intros x Hx; apply M3; lia).
  assert (Q2 : ld4 m2 (sp + 4) = di) by (rewrite <- L2; apply ld4_ext; [lia|lia|]; intros x Hx; apply M3; lia).
  unreg. eapply (X_pop _ _ _ _ _ _ _ _ _ _ _ _ _ I 6 (sp + 4)); [lia|regs_cbn; apply w32_is; lia|]. regs_cbn. rewrite Q1. intros s3 I3.
  eapply (X_pop _ _ _ _ _ _ _ _ _ _ _ _ _ I3 7 (sp + 8)); [lia|regs_cbn; apply w32_is; lia|]. regs_cbn. rewrite Q2. intros s4 I4.
  eapply K; [exact I4|exact M3|exact M4].
Qed.

(** the whole copy, from [A] to [D] given by the instructions [i1] and [i2] *)
Lemma bitwise_W n s a c dx b sp bp A D si di f df m l tr (F : sys) i1 i2 :
  is s (R8 a c dx b sp bp si di) f df m -> Z.of_nat n < 2 ^ 31 ->
  8 <= sp -> sp < W32 -> 0 <= D -> D + Z.of_nat n < W32 -> 0 <= A -> A + Z.of_nat n < W32 ->
  A + Z.of_nat n <= D \/ D + Z.of_nat n <= A -> D + Z.of_nat n <= sp - 8 \/ sp <= D -> A + Z.of_nat n <= sp - 8 \/ sp <= A ->
  (forall s' m' l' (G : sys), is s' (R8 a c dx b (sp - 8) bp si di) f false m' ->
     (forall s2, is s2 (R8 a c dx b (sp - 8) bp si D) f false m' -> W l' s2 tr G) ->
     (forall x, ~ (sp - 8 <= x < sp) -> m' x = m x) -> W (i1 :: l') s' tr G) ->
  (forall s' m' l' (G : sys), is s' (R8 a c dx b (sp - 8) bp si D) f false m' ->
     (forall s2, is s2 (R8 a c dx b (sp - 8) bp A D) f false m' -> W l' s2 tr G) ->
     (forall x, ~ (sp - 8 <= x < sp) -> m' x = m x) -> W (i2 :: l') s' tr G) ->
  (forall s' c' m', is s' (R8 a c' dx b sp bp si di) f false m' -> (forall x, ~ (D <= x < D + Z.of_nat n) -> ~ (sp - 8 <= x < sp) -> m' x = m x) ->
     (forall j, 0 <= j < Z.of_nat n -> m' (D + j) = m (A + j)) -> W l s' tr F) ->
  W (BitwiseCopy_Setup ++ i1 :: i2 :: BitwiseCopy_Do (Z.of_nat n) ++ l) s tr F.
Proof.
  intros I Hn S1 S2 D1 D2 A1 A2 Dis DS AS I1 I2 K. unfold BitwiseCopy_Setup. cbn [app].
  pose proof (is_ok _ _ _ _ _ I) as Ok. regs_cbn. destruct Ok as (_ & _ & _ & _ & _ & _ & Osi & Odi).
  go. go. go. eapply I1; [match goal with H : is _ _ _ _ _ |- _ => exact H end| |intros x Hx; rewrite !st4_out by lia; reflexivity].
  intros s4 I4. eapply I2; [exact I4| |intros x Hx; rewrite !st4_out by lia; reflexivity]. intros s5 I5.
  eapply (copy_W n s5 a c dx b (sp - 8) bp A D si di f false _ l tr F I5 eq_refl).
  - apply ld4_same; [lia|lia|exact Osi].
  - rewrite ld4_diff by lia. replace (sp - 8 + 4) with (sp - 4) by lia. apply ld4_same; [lia|lia|exact Odi].
  - exact Hn.
  - lia.
  - lia.
  - lia.
  - lia.
  - lia.
  - lia.
  - exact Dis.
  - lia.
  - intros s6 c6 m6 I6 M1 M2. replace (sp - 8 + 8) with sp in I6 by lia. eapply K; [exact I6| |].
    + intros x X1 X2. rewrite M1 by exact X1. rewrite !st4_out by lia. reflexivity.
    + intros j Hj. rewrite M2 by exact Hj. rewrite !st4_out by lia. reflexivity.
Qed.

(** ** One parameter *)
Definition moved (k : pkind) (m : Z -> Z) (a : Z) (m' : Z -> Z) (b : Z) : Prop :=
  if pk_float k then ld m' b (pk_size k) = quiet (pk_size k) (ld m a (pk_size k))
  else forall j, 0 <= j < Z.of_nat (pk_size k) -> m' (b + j) = m (a + j).
Hypothesis Hu : fpu_ok u.

Lemma push_one_size gcc off p k place last c : param_class p k -> snd (fst (push_one gcc off p place last c)) = slot k.
Proof.
  intros C. pose proof (class_size p k C) as [Sz _]. destruct C as (Fb & [(C1 & C2 & _ & ->)|(C1 & C2 & C3 & Es & C)]); unfold push_one; rewrite C1.
  - rewrite C2. reflexivity.
  - assert (Sl : forall n, pk_size k = n -> slot k = 4 * ((Z.of_nat n + 3) / 4)) by (intros n <-; reflexivity).
    destruct C as [(Ty & _ & _ & C)|[(Ty & _ & _ & C)|(Ty & _ & Cp & C & _)]]; rewrite Ty; cbn [Z.eqb Pos.eqb PassType_Basic PassType_Float PassType_Object].
    + unfold PushBasic. rewrite Es. destruct (NextReg c) as [r1 c1]. destruct C as [C|[C|[C|C]]]; rewrite C, (Sl _ C); cbn; try reflexivity.
      destruct (NextReg c1). reflexivity.
    + unfold PushFloat. rewrite Es. destruct (NextReg c) as [r1 c1]. destruct C as [C|C]; rewrite C, (Sl _ C); reflexivity.
    + unfold PushObject. rewrite Fb, Sz. reflexivity.
Qed.

Ltac nextreg := unfold NextReg in *; repeat (match goal with |- context [if ?b then _ else _] => lazymatch b with _ mod 3 =? _ => destruct b end end; cbn [fst snd app]).
Lemma push_one_W gcc off p k place last c s a cc dx b sp bp si di df mem l tr (F : sys) :
  param_class p k -> is s (R8 a cc dx b sp bp si di) [] df mem ->
  8 <= off < 2 ^ 20 -> 0 <= bp -> bp + off + slot k < W32 -> slot k + 8 <= sp -> sp <= bp + off -> slot k < 2 ^ 20 ->
  (forall s' cc' dx' b' df' mem', is s' (R8 a cc' dx' b' (sp - slot k) bp si di) [] df' mem' ->
     (forall x, ~ (sp - slot k - 8 <= x < sp) -> mem' x = mem x) -> moved k mem (bp + off) mem' (sp - slot k) -> W l s' tr F) ->
  W (fst (fst (push_one gcc off p place last c)) ++ l) s tr F.
Proof.
  intros C I Ho Hbp Hb1 Hsp Hsp2 Hsl K. pose proof (class_size p k C) as [Sz _]. pose proof (is_bytes _ _ _ _ _ I) as Hby.
  destruct C as (Fb & [(C1 & C2 & _ & Ek)|(C1 & C2 & C3 & Es & C)]); unfold push_one; rewrite C1.
  - (* a reference *)
    subst k. rewrite C2. change (slot (PKind false 4 None)) with 4 in *. cbn [PushRef fst app].
    go. eapply K; [eassumption| |].
    + intros x Hx. apply st4_out; unfold W32 in *; lia.
    + intros j Hj. cbn [pk_float pk_size] in *. apply store_bytes with (n := 4%nat); try assumption; try (unfold W32 in *; lia).
      unfold ld4. apply Z.mod_small. apply ld_range. exact Hby.
  - assert (Sl : forall n, pk_size k = n -> slot k = 4 * ((Z.of_nat n + 3) / 4)) by (intros n <-; reflexivity).
    destruct C as [(Ty & Fl & _ & C)|[(Ty & Fl & _ & C)|(Ty & Fl & Cp & C & _)]]; rewrite Ty; cbn [Z.eqb Pos.eqb PassType_Basic PassType_Float PassType_Object].
    + (* a number *)
      unfold PushBasic. rewrite Es. unfold moved in K. rewrite Fl in K. destruct C as [C|[C|[C|C]]]; pose proof (Sl _ C) as Sv; match type of Sv with _ = ?v => let v' := eval vm_compute in v in change (slot k = v') in Sv end; rewrite C in K |- *; rewrite Sv in K, Hb1, Hsp, Hsl; clear Sv; cbn [Z.of_nat Pos.of_succ_nat Pos.succ Z.eqb Pos.eqb].
      * nextreg; go; go; (eapply K; [eassumption|intros x Hx; apply st4_out; unfold W32 in *; lia|]); intros j Hj;
          (apply store_bytes with (n := 1%nat); try assumption; try (unfold W32 in *; lia)); apply Z.mod_small; apply ld_range; exact Hby.
      * nextreg; unreg; (eapply (X_movzx16 _ _ _ _ _ _ _ _ _ _ _ _ _ I); [lia|lia|lia|unfold int32_ok; lia|regs_cbn; apply w32_is; [reflexivity|lia]|]; intros s1 v Ev I1; regs_cbn; go;
          (eapply K; [eassumption|intros x Hx; apply st4_out; unfold W32 in *; lia|]); intros j Hj;
          (apply store_bytes with (n := 2%nat); try assumption; try (unfold W32 in *; lia))).
      * nextreg; go; go; (eapply K; [eassumption|intros x Hx; apply st4_out; unfold W32 in *; lia|]); intros j Hj;
          (apply store_bytes with (n := 4%nat); try assumption; try (unfold W32 in *; lia)); apply Z.mod_small; apply ld_range; exact Hby.
      * destruct (NextReg c) as [r1 c1] eqn:N1. destruct (NextReg c1) as [r2 c2] eqn:N2. cbn [fst snd app].
        assert (Rr : (r1 = 3 /\ r2 = 1) \/ (r1 = 1 /\ r2 = 2) \/ (r1 = 2 /\ r2 = 3) \/ (r1 = 2 /\ r2 = 1) \/ (r1 = 3 /\ r2 = 2) \/ (r1 = 1 /\ r2 = 3)).
        { revert N1 N2. unfold NextReg. destruct (Z.eqb_spec (c mod 3) 0) as [M0|M0]; [|destruct (Z.eqb_spec (c mod 3) 1) as [M1|M1]]; intros [= <- <-]; unfold EBX, ECX, EDX.
          - destruct (Z.eqb_spec ((c + 1) mod 3) 0) as [X|X]; [Z.div_mod_to_equations; lia|]. destruct (Z.eqb_spec ((c + 1) mod 3) 1); intros [= <- <-]; clear; tauto.
          - destruct (Z.eqb_spec ((c + 1) mod 3) 0) as [X|X]; [Z.div_mod_to_equations; lia|]. destruct (Z.eqb_spec ((c + 1) mod 3) 1) as [X1|X1]; [Z.div_mod_to_equations; lia|]. intros [= <- <-]; clear; tauto.
          - cbn. intros [= <- <-]. clear; tauto. }
        assert (G : forall s1 cc1 dx1 b1, is s1 (R8 a cc1 dx1 b1 (sp - 8) bp si di) [] df (st4 (st4 mem (sp - 4) (ld4 mem (bp + (off + 4)))) (sp - 8) (ld4 mem (bp + off))) -> W l s1 tr F).
        { intros s1 cc1 dx1 b1 I1. eapply K; [exact I1| |].
          - intros x Hx. rewrite !st4_out by (unfold W32 in *; lia). reflexivity.
          - intros j Hj. destruct (Z_lt_dec j 4).
            + apply store_bytes with (n := 4%nat); try assumption; try (unfold W32 in *; lia). apply Z.mod_small; apply ld_range; exact Hby.
            + rewrite st4_out by (unfold W32 in *; lia). replace (sp - 8 + j) with (sp - 4 + (j - 4)) by lia. replace (bp + off + j) with (bp + (off + 4) + (j - 4)) by lia.
              apply store_bytes with (n := 4%nat); try assumption; try (unfold W32 in *; lia). apply Z.mod_small; apply ld_range; exact Hby. }
        clear K. decompose [or and] Rr; subst r1 r2; go; go; go; go; (eapply G; eassumption).
    + (* a floating point number *)
      unfold PushFloat. rewrite Es. unfold moved in K. rewrite Fl in K.
      destruct Hu as [Hu1 Hu2].
      destruct C as [C|C]; pose proof (Sl _ C) as Sv; match type of Sv with _ = ?v => let v' := eval vm_compute in v in change (slot k = v') in Sv end; rewrite C in K |- *; rewrite Sv in K, Hb1, Hsp, Hsl; clear Sv; cbn [Z.of_nat Pos.of_succ_nat Pos.succ Z.eqb Pos.eqb].
      * nextreg; unreg; (eapply (X_fld _ _ _ _ _ _ _ _ _ _ _ _ _ I 4%nat _ 5 off (bp + off)); [reflexivity|cbn [asm_ok]; unfold base_ok, reg_ok, int32_ok; lia|lia|reflexivity|regs_cbn; apply w32_is; lia|]; intros s1 I1; regs_cbn; go;
          match goal with J : is _ _ _ _ _ |- _ => eapply (X_fstp _ _ _ _ _ _ _ _ _ _ _ _ _ J 4%nat _ 4 0 (sp - 4)) end; [reflexivity|exact Logic.I|lia|reflexivity|regs_cbn; apply w32_is; lia|]; regs_cbn; intros s2 I2;
          eapply K; [exact I2| |]; [intros x Hx; change (Z.of_nat 4) with 4 in *; rewrite sto_out by lia; apply st4_out; lia|];
          rewrite ld_sto_same by (try apply Hu1; lia); apply Hu2; [auto|]; apply ld_range; exact Hby).
      * cbn [fst snd app]. unreg; (eapply (X_fld _ _ _ _ _ _ _ _ _ _ _ _ _ I 8%nat _ 5 off (bp + off)); [reflexivity|cbn [asm_ok]; unfold base_ok, reg_ok, int32_ok; lia|lia|reflexivity|regs_cbn; apply w32_is; lia|]; intros s1 I1; regs_cbn; go;
          match goal with J : is _ _ _ _ _ |- _ => eapply (X_fstp _ _ _ _ _ _ _ _ _ _ _ _ _ J 8%nat _ 4 0 (sp - 8)) end; [reflexivity|exact Logic.I|lia|reflexivity|regs_cbn; apply w32_is; lia|]; regs_cbn; intros s2 I2;
          eapply K; [exact I2| |]; [intros x Hx; rewrite sto_out by lia; reflexivity|];
          rewrite ld_sto_same by (try apply Hu1; lia); apply Hu2; [auto|]; apply ld_range; exact Hby).
    + (* an object *)
      unfold PushObject. rewrite Fb, Cp, Sz. cbn [Z.eqb negb fst]. rewrite app_nil_r, <- !app_assoc. cbn [app].
      pose proof (slot_ge k) as [Sg _]. unfold moved in K. rewrite Fl in K. unfold lea_esp. rewrite Es.
      unreg. eapply (X_sub_esp _ _ _ _ _ _ _ _ _ _ _ _ _ I _ (slot k) (sp - slot k)); [reflexivity|cbn [asm_ok]; unfold rm_ok, int32_ok; lia|regs_cbn; apply w32_is; lia|]. regs_cbn. intros s1 I1.
      change (?i1 :: ?i2 :: BitwiseCopy_Do (Z.of_nat (pk_size k)) ++ l) with (i1 :: i2 :: BitwiseCopy_Do (Z.of_nat (pk_size k)) ++ l).
      eapply (bitwise_W (pk_size k) s1 a cc dx b (sp - slot k) bp (bp + off) (sp - slot k) si di [] df mem l tr F _ _ I1); try lia.
      * intros s' m' l' G J KJ _. eapply (X_lea_esp _ _ _ _ _ _ _ _ _ _ _ _ _ J 7 8 (sp - slot k)); [lia|lia|regs_cbn; apply w32_is; lia|]. regs_cbn. exact KJ.
      * intros s' m' l' G J KJ _. eapply (X_lea _ _ _ _ _ _ _ _ _ _ _ _ _ J 6 5 off (bp + off)); [lia|lia|lia|unfold int32_ok; lia|regs_cbn; apply w32_is; lia|]. regs_cbn. exact KJ.
      * intros s' c' m' J M1 M2. eapply K; [exact J| |exact M2]. intros x Hx. apply M1; lia.
Qed.

(** ** All parameters *)
Lemma copied_to l m a m1 m2 b : 0 <= b -> b + total l <= W32 -> (forall x, b <= x < b + total l -> m2 x = m1 x) -> copied l m a m1 b -> copied l m a m2 b.
Proof.
  revert a b. induction l as [|k l IH]; intros a b H0 H1 H C; [exact Logic.I|]. rewrite total_cons in *. destruct C as [C1 C2].
  pose proof (total_pos l). pose proof (slot_ge k) as [Sg _]. split.
  - destruct (pk_float k).
    + rewrite <- C1. apply ld_ext; [lia|lia|]. intros x Hx. apply H. lia.
    + intros j Hj. rewrite H by lia. apply C1. exact Hj.
  - apply IH; [lia|lia| |exact C2]. intros x Hx. apply H. lia.
Qed.
Lemma push_params_W gcc fbase : forall ps pks off fb c s a cc dx b sp bp si di df mem l tr (F : sys),
  Forall2 param_class ps pks -> is s (R8 a cc dx b sp bp si di) [] df mem ->
  8 <= off -> off + total pks < 2 ^ 20 -> 0 <= bp -> bp + off + total pks < W32 -> total pks + 8 <= sp -> sp <= bp + off ->
  (forall s' cc' dx' b' df' mem', is s' (R8 a cc' dx' b' (sp - total pks) bp si di) [] df' mem' ->
     (forall x, ~ (sp - total pks - 8 <= x < sp) -> mem' x = mem x) -> copied pks mem (bp + off) mem' (sp - total pks) -> W l s' tr F) ->
  W (fst (fst (fst (push_params gcc fbase off fb ps c))) ++ l) s tr F.
Proof.
  induction ps as [|p ps IH]; intros pks off fb c s a cc dx b sp bp si di df mem l tr F C I H1 H2 H3 H4 H5 H6 K.
  - inversion C; subst pks. cbn [push_params fst app total fold_right] in *. replace (sp - 0) with sp in K by lia. eapply K; [exact I| |exact Logic.I]. reflexivity.
  - inversion C as [|p0 k ps0 pk Cp Cps E1 E2]; subst p0 ps0 pks. rewrite total_cons in *. cbn [push_params].
    destruct (class_size p k Cp) as [Sz S4]. rewrite Sz. pose proof (total_pos pk) as Tp. pose proof (slot_ge k) as [Sg _].
    set (fb' := if ForcedByRef p then _ else _).
    specialize (IH pk (off + slot k) fb' c s a cc dx b sp bp si di df mem).
    destruct (push_params gcc fbase (off + slot k) fb' ps c) as [[[l0 n0] last0] c0].
    pose proof (push_one_W gcc off p k (fbase + fb) last0 c0) as One.
    destruct (push_one gcc off p (fbase + fb) last0 c0) as [[l1 n1] c1]. cbn [fst] in *. rewrite <- app_assoc.
    apply IH; [exact Cps|exact I|lia|lia|lia|lia|lia|lia|]. intros s1 cc1 dx1 b1 df1 mem1 I1 O1 C1.
    eapply One; [exact Cp|exact I1|lia|lia|lia|lia|lia|lia|]. intros s2 cc2 dx2 b2 df2 mem2 I2 O2 C2.
    replace (sp - total pk - slot k) with (sp - (slot k + total pk)) in * by lia.
    eapply K; [exact I2| |].
    + intros x Hx. rewrite O2 by lia. apply O1. lia.
    + cbn [copied]. split.
      * revert C2. unfold moved. destruct (pk_float k).
        -- intros ->. f_equal. apply ld_ext; [lia|lia|]. intros x Hx. apply O1. lia.
        -- intros C2 j Hj. rewrite C2 by exact Hj. apply O1. lia.
      * replace (bp + off + slot k) with (bp + (off + slot k)) by lia. replace (sp - (slot k + total pk) + slot k) with (sp - total pk) by lia.
        eapply copied_to; [lia|lia| |exact C1]. intros x Hx. apply O2. lia.
Qed.
Lemma push_params_size gcc fbase : forall ps pks off fb c, Forall2 param_class ps pks -> snd (fst (fst (push_params gcc fbase off fb ps c))) = total pks.
Proof.
  induction ps as [|p ps IH]; intros pks off fb c C; inversion C as [|p0 k ps0 pk Cp Cps E1 E2]; [reflexivity|]. subst p0 ps0 pks. rewrite total_cons. cbn [push_params].
  set (fb' := if ForcedByRef p then _ else _). set (off' := off + _). specialize (IH pk off' fb' c Cps).
  destruct (push_params gcc fbase off' fb' ps c) as [[[l0 n0] last0] c0].
  pose proof (push_one_size gcc off p k (fbase + fb) last0 c0 Cp) as One.
  destruct (push_one gcc off p (fbase + fb) last0 c0) as [[l1 n1] c1]. cbn [fst snd] in *. lia.
Qed.
Lemma do_length n : (length (BitwiseCopy_Do n) <= 8)%nat.
Proof. unfold BitwiseCopy_Do. repeat match goal with |- context [if ?b then _ else _] => destruct b end; cbn [app length]; lia. Qed.
Lemma push_one_length gcc off p k place last c : param_class p k -> (length (fst (fst (push_one gcc off p place last c))) <= 14)%nat.
Proof.
  intros C. destruct C as (Fb & [(C1 & C2 & _ & _)|(C1 & C2 & C3 & Es & C)]); unfold push_one; rewrite C1.
  - rewrite C2. cbn. lia.
  - destruct C as [(Ty & _ & _ & C)|[(Ty & _ & _ & C)|(Ty & _ & Cp & C & _)]]; rewrite Ty; cbn [Z.eqb Pos.eqb PassType_Basic PassType_Float PassType_Object].
    + unfold PushBasic. rewrite Es. destruct (NextReg c) as [r1 c1]. destruct (NextReg c1). destruct C as [C|[C|[C|C]]]; rewrite C; cbn; lia.
    + unfold PushFloat. rewrite Es. destruct (NextReg c) as [r1 c1]. destruct C as [C|C]; rewrite C; cbn; lia.
    + unfold PushObject. rewrite Fb, Cp. cbn [Z.eqb negb fst]. rewrite !app_length. cbn [length BitwiseCopy_Setup]. pose proof (do_length (pi_size p)). lia.
Qed.
Lemma push_params_length gcc fbase : forall ps pks off fb c, Forall2 param_class ps pks -> (length (fst (fst (fst (push_params gcc fbase off fb ps c)))) <= 14 * length ps)%nat.
Proof.
  induction ps as [|p ps IH]; intros pks off fb c C; inversion C as [|p0 k ps0 pk Cp Cps E1 E2]; [cbn; lia|]. subst p0 ps0 pks. cbn [push_params].
  set (fb' := if ForcedByRef p then _ else _). set (off' := off + _). specialize (IH pk off' fb' c Cps).
  destruct (push_params gcc fbase off' fb' ps c) as [[[l0 n0] last0] c0].
  pose proof (push_one_length gcc off p k (fbase + fb) last0 c0 Cp) as One.
  destruct (push_one gcc off p (fbase + fb) last0 c0) as [[l1 n1] c1]. cbn [fst snd] in *. rewrite app_length. cbn [length]. lia.
Qed.
End Push.
