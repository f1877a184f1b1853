(** Running the public function. *)
From Coq Require Import List ZArith Bool Lia.
From Verif Require Import TrampModel ProtoModel GenModel Asm32Model Asm32Spec Asm32Proofs Mach32 Mach32Proofs Jit32Model Jit32Spec Jit32Steps Jit32Base.
Import ListNotations.
Local Open Scope Z_scope.
Notation length := List.length.

Definition pub1 : list asm := [APush_Reg EBP; AMov_Reg_Rm EBP ESP MOD_REG; AMovzx_Reg32_Rm8_Disp8 EAX EBP 8; AMov_Reg_Rm_DispAuto ECX EBP 12; ATest_Rm_Reg8 EAX EAX MOD_REG].
Definition pub2 (k : consts) : list asm := [AMov_Rm_Imm32 EDX (k_phi k) MOD_REG; AMov_Rm_Reg EDX ECX MOD_MEM_REG].
Definition pub3 : list asm := [ATest_Rm_Reg ECX ECX MOD_REG].
Definition pub4 (gcc : bool) (k : consts) : list asm :=
  [APush_Imm32 (k_vfn k); APush_Imm32 (k_pi k); APush_Imm32 (k_idx k); APush_Imm32 (k_offs k); APush_Imm32 HOOKMAN_VERSION]
  ++ (if gcc then [APush_Reg ECX] else [])
  ++ [AMov_Reg_Rm EDX ECX MOD_MEM_REG; AMov_Reg_Rm EAX EDX MOD_MEM_REG; ACall_Reg EAX]
  ++ (if gcc then [AAdd_Rm_Imm8 ESP 24 MOD_REG] else []).
Definition pub5 : list asm := [AXor_Reg_Rm EAX EAX MOD_REG; AMov_Reg_Rm ESP EBP MOD_REG; APop_Reg EBP; AReturn].
Definition pub_list (gcc : bool) (k : consts) : list asm :=
  pub1 ++ AJump_Cond_Imm8 CC_Z (off (pub2 k)) :: pub2 k ++ pub3 ++ AJump_Cond_Imm8 CC_Z (off (pub4 gcc k)) :: pub4 gcc k ++ pub5.

Lemma pub_func_list gcc k : pub_func gcc k = emit_all (pub_list gcc k).
Proof.
  unfold pub_func.
  set (b1 := put [] _). assert (E1 : b1 = emit_all (pub1 ++ [AJump_Cond_Imm8 CC_Z 0])) by reflexivity.
  set (b2 := put b1 _). assert (E2 : b2 = emit_all (pub1 ++ AJump_Cond_Imm8 CC_Z 0 :: pub2 k)).
  { unfold b2. rewrite E1, put_emit, <- app_assoc. reflexivity. }
  cbv zeta. rewrite E1, E2, !opos_emit, close8 by apply jumpy_j8.
  set (q := pub1 ++ AJump_Cond_Imm8 CC_Z _ :: pub2 k).
  rewrite put_emit. replace (q ++ [ATest_Rm_Reg ECX ECX MOD_REG; AJump_Cond_Imm8 CC_Z 0]) with ((q ++ pub3) ++ [AJump_Cond_Imm8 CC_Z 0]) by (rewrite <- app_assoc; reflexivity).
  rewrite put_emit, !opos_emit. fold (pub4 gcc k).
  replace (((q ++ pub3) ++ [AJump_Cond_Imm8 CC_Z 0]) ++ pub4 gcc k) with ((q ++ pub3) ++ AJump_Cond_Imm8 CC_Z 0 :: pub4 gcc k) by (rewrite <- !app_assoc; reflexivity).
  rewrite close8 by apply jumpy_j8. rewrite put_emit. unfold pub_list, q. repeat (rewrite <- app_assoc || cbn [app]). reflexivity.
Qed.

Definition consts_ok (k : consts) : Prop :=
  int32_ok (k_phi k) /\ int32_ok (k_sh k) /\ int32_ok (k_setup k) /\ int32_ok (k_end k) /\ int32_ok (k_offs k) /\ int32_ok (k_idx k) /\
  int32_ok (k_pi k) /\ int32_ok (k_vfn k) /\ int32_ok (k_vsn k) /\ int32_ok (k_fmt k).

Lemma off_pub4 gcc k : off (pub4 gcc k) = if gcc then 35 else 31.
Proof. destruct gcc; reflexivity. Qed.

Section Pub.
Variables (u : fpu) (base : Z) (env : nat -> Z -> st -> st) (gcc : bool) (k : consts) (s0 : st).
Let S0 := rg s0 ESP.
Let p := PubInfo (k_phi k) 1 (k_offs k) (k_idx k) (k_pi k) (k_vfn k).
Hypothesis Hk : consts_ok k.
Hypothesis Hwf : wf s0.
Hypothesis Hsp : 2 ^ 12 <= S0 < W32 - 2 ^ 12.
Hypothesis Hphi : ~ (S0 - 36 < w32 (k_phi k) < S0 + 12) /\ w32 (k_phi k) <= W32 - 4.
Hypothesis Hret : forall n t s, wf s -> setinfo_returns gcc s (env n t s).
(* the list of instructions that is running *)
Variable PL : list asm.
Notation W := (W u base env PL unit).
Definition final (tr : list event) (s : st) : Prop :=
  at_ret (emit_all PL) 0 s /\ rg s ESP = S0 /\ rg s EAX = 0 /\ saved s0 s /\ fp s = fp s0 /\ ld4 (mm s) S0 = ld4 (mm s0) S0 /\
  match tr with
  | [] => arg s0 1 = 0 /\ same_but S0 32 (pub_mem p s0) (mm s)
  | [e] => arg s0 1 <> 0 /\ setinfo_call gcc p s0 e /\ mm s = mm (e_out e)
  | _ => False
  end.
Let F : sys unit := fun tr s _ => final tr s.
Let m1 := st4 (mm s0) (S0 - 4) (rg s0 EBP).
Let m2 := if store_flag s0 then st4 m1 (w32 (k_phi k)) (arg s0 1) else m1.

Ltac rdm := repeat first [ rewrite ld4_same by (first [bounds | assumption | unfold okr; bounds]) | rewrite ld4_diff by bounds ].

Ltac rda y := lazymatch goal with |- ld4 _ (w32 ?x) = _ => rewrite (w32_is x y) by bounds end.

Lemma B0 : bytes_ok (mm s0).
Proof. exact (proj2 Hwf). Qed.
Lemma okS : okr S0.
Proof. exact (proj1 Hwf 4). Qed.
Lemma m2_same : same_but S0 32 (pub_mem p s0) m2.
Proof.
  intros x Hx Ho. unfold m2, pub_mem. cbn [p_phi p]. destruct (store_flag s0); [apply st4_congr|]; unfold m1; apply st4_out; bounds.
Qed.
Lemma run_tail s tr R f d m (G : sys unit) :
  is s R f d m -> f = fp s0 -> rbp R = S0 - 4 -> rb R = rg s0 EBX -> rsi R = rg s0 ESI -> rdi R = rg s0 EDI ->
  ld4 m (S0 - 4) = rg s0 EBP -> ld4 m S0 = ld4 (mm s0) S0 ->
  (forall s', at_ret (emit_all PL) 0 s' -> rg s' ESP = S0 -> rg s' EAX = 0 -> saved s0 s' -> fp s' = fp s0 -> mm s' = m -> G [] s' tt) ->
  W pub5 s tr G.
Proof.
  intros Is Hf E1 E2 E3 E4 L1 L2 HG. unfold pub5. pose proof okS as HS. unfold okr in HS.
  destruct R as [qa qc qd qb qsp qbp qsi qdi]. regs_cbn. subst qbp.
  go. go. go. match goal with K : is _ _ _ _ _ |- _ => destruct K as (HR & HF & HD & HM & HW) end.
  apply W_known. intros Sx. apply (W_stop _ _ _ _ _ _ _ _ _ tt). apply HG.
  - eapply ret_at; [reflexivity | exact I | exact Sx].
  - cbn [rg set_pc]. unfold ESP. rewrite HR by lia. cbn [getr rsp]. lia.
  - cbn [rg set_pc]. unfold EAX. rewrite HR by lia. reflexivity.
  - intros r Hr. cbn [rg set_pc]. unfold nonvolatile in Hr. unreg.
    destruct Hr as [<- | [<- | [<- | [<- | []]]]]; rewrite HR by lia; cbn [getr rb rbp rsi rdi]; assumption.
  - cbn [fp set_pc]. congruence.
  - exact HM.
Qed.

Lemma arg_ok n : okr (arg s0 n).
Proof. apply ld4_range. exact B0. Qed.
Lemma arg0_is : ld (mm s0) (S0 + 4) 1 mod 256 = arg s0 0 mod 256.
Proof.
  unfold arg. rewrite (w32_is _ (S0 + 4)) by (fold S0; bounds). unfold ld4.
  rewrite (ld_low 1 3 (mm s0) (S0 + 4) B0). change (256 ^ Z.of_nat 1) with 256. change (1 + 3)%nat with 4%nat. rewrite Z.mod_mod by lia. reflexivity.
Qed.
Lemma arg1_is : arg s0 1 = ld4 (mm s0) (S0 + 8).
Proof. unfold arg. rewrite (w32_is _ (S0 + 8)) by (fold S0; bounds). reflexivity. Qed.

Hypothesis Hhi : arg s0 1 <> 0 ->
  let m := pub_mem p s0 in let hi := arg s0 1 in
  hi <= W32 - 4 /\ ~ (S0 - 36 < hi < S0) /\ ld4 m hi <= W32 - 4 /\ ~ (S0 - 36 < ld4 m hi < S0).

Lemma run_rest s tr R m : is s R (fp s0) (df s0) m -> m = m2 -> rsp R = S0 - 4 -> rbp R = S0 - 4 -> rb R = rg s0 EBX -> rsi R = rg s0 ESI -> rdi R = rg s0 EDI ->
  rc R = arg s0 1 -> W (pub3 ++ AJump_Cond_Imm8 CC_Z (off (pub4 gcc k)) :: pub4 gcc k ++ pub5) s tr F.
Proof.
  intros Is Em Es Eb E2 E3 E4 Ec. unfold pub3. cbn [app]. pose proof okS as HS. unfold okr in HS. pose proof m2_same as M2.
  assert (L1 : ld4 m2 (S0 - 4) = rg s0 EBP).
  { unfold m2. assert (X : ld4 m1 (S0 - 4) = rg s0 EBP) by (unfold m1; apply ld4_same; try bounds; apply Hwf).
    destruct (store_flag s0); [rewrite ld4_diff; [exact X | pose proof (w32_range (k_phi k)); bounds ..] | exact X]. }
  assert (L2 : ld4 m2 S0 = ld4 (mm s0) S0).
  { unfold m2. assert (X : ld4 m1 S0 = ld4 (mm s0) S0) by (unfold m1; apply ld4_diff; bounds).
    destruct (store_flag s0); [rewrite ld4_diff; [exact X | pose proof (w32_range (k_phi k)); bounds ..] | exact X]. }
  eapply (X_test_jz _ _ _ _ _ _ _ _ _ _ _ _ _ Is _ ECX _ _ (arg s0 1 =? 0)); [reflexivity | | reflexivity | unfold ECX; lia | cbn [getr ECX]; rewrite Ec; reflexivity |].
  { rewrite off_pub4. cbn [asm_ok]. unfold CC_Z, cond_ok, int8_ok. destruct gcc; lia. }
  intros s' Is'. clear s Is.
  destruct (Z.eqb_spec (arg s0 1) 0) as [Z0|Nz].
  - eapply (run_tail s' tr R (fp s0) (df s0) m F Is'); try assumption; try (rewrite Em; assumption); [reflexivity|].
    intros q Q1 Q2 Q3 Q4 Q5 Q6. unfold F, final. split; [exact Q1|]. split; [exact Q2|]. split; [exact Q3|]. split; [exact Q4|]. split; [exact Q5|].
    rewrite Q6, Em. split; [exact L2|]. split; [exact Z0|]. exact M2.
  - destruct (Hhi Nz) as (H1 & H2 & H3 & H4). cbv zeta in H1, H2, H3, H4. pose proof (arg_ok 1) as Hi0. unfold okr in Hi0.
    destruct Hk as (K1 & K2 & K3 & K4 & K5 & K6 & K7 & K8 & K9 & K10).
    destruct R as [qa qc qd qb qsp qbp qsi qdi]. regs_cbn. subst qsp qbp qc m. set (hi := arg s0 1) in *.
    assert (Ra : ld4 m2 hi = ld4 (pub_mem p s0) hi) by (apply ld4_ext; [lia | lia |]; intros x Hx; apply M2; bounds).
    assert (Rb : ld4 m2 (ld4 m2 hi) = ld4 (pub_mem p s0) (ld4 (pub_mem p s0) hi)).
    { rewrite Ra. pose proof (ld4_range (pub_mem p s0) hi) as X. assert (bytes_ok (pub_mem p s0)) as Y by (unfold pub_mem; destruct (store_flag s0); [apply sto_bytes|]; exact B0).
      specialize (X Y). apply ld4_ext; [lia | lia |]. intros x Hx. apply M2; bounds. }
    pose proof (ld4_range (pub_mem p s0) hi) as Hv. 
    assert (bytes_ok (pub_mem p s0)) as Yp by (unfold pub_mem; destruct (store_flag s0); [apply sto_bytes|]; exact B0). specialize (Hv Yp).
    rewrite <- Ra in Hv, H3, H4.
    assert (Q1 : okr (w32 1)) by apply w32_range. assert (Q2 : okr hi) by exact Hi0.
    pose proof (w32_range (k_vfn k)) as Q3. pose proof (w32_range (k_pi k)) as Q4. pose proof (w32_range (k_idx k)) as Q5. pose proof (w32_range (k_offs k)) as Q6.
    unfold pub4, HOOKMAN_VERSION. destruct gcc eqn:Eg; cbn [app].
    + do 7 go. repeat (rewrite ld4_diff in I by bounds). go. repeat (rewrite ld4_diff in I0 by bounds). rewrite Rb in I0.
      unreg. eapply (X_call _ _ _ _ _ _ _ _ _ _ _ _ _ I0); [lia | side |]. intros e v T1 T2 T3. regs_cbn.
      pose proof (Hret (length tr) (e_target e) (e_in e) (proj2 (proj2 (proj2 (proj2 T2))))) as HR. rewrite <- T3 in HR.
      destruct T2 as (V1 & V2 & V3 & V4 & V5). destruct HR as (O1 & O2 & O3 & O4 & O5).
      pose proof (is_self _ O1) as Io. unfold ESP in *.
      rewrite (V1 4) in O4, O5 by lia. cbn [getr rsp] in O4, O5. cbn iota in O4, O5. rewrite (w32_is _ (S0 - 28)) in O4. 2:bounds. 2:bounds.
      assert (Sv : forall r, In r nonvolatile -> rg (e_out e) r = getr (R8 (ld4 (pub_mem p s0) (ld4 (pub_mem p s0) hi)) hi (ld4 m2 hi) qb (S0 - 32) (S0 - 4) qsi qdi) r).
      { intros r Hr. rewrite (O2 r Hr). apply V1. unfold nonvolatile in Hr. unreg. cbn [In] in Hr. lia. }
      rewrite O4, (Sv 3), (Sv 5), (Sv 6), (Sv 7) in Io by (unfold nonvolatile; cbn [In]; unreg; tauto). regs_cbn.
      go.
      eapply run_tail; [eassumption | congruence | reflexivity | assumption | assumption | assumption | | |].
      * unreg. rewrite <- L1. rewrite (ld4_ext _ (mm (e_in e))) by (try bounds; intros; apply O5; bounds). rewrite V4. unfold m2. repeat (rewrite ld4_diff by bounds). reflexivity.
      * rewrite <- L2. rewrite (ld4_ext _ (mm (e_in e))) by (try bounds; intros; apply O5; bounds). rewrite V4. repeat (rewrite ld4_diff by bounds). reflexivity.
      * intros q G1 G2 G3 G4 G5 G6. unfold F, final. split; [exact G1|]. split; [exact G2|]. split; [exact G3|]. split; [exact G4|]. split; [exact G5|].
        split; [| split; [exact Nz | split; [| exact G6]]].
        -- rewrite G6, <- L2. rewrite (ld4_ext _ (mm (e_in e))) by (try bounds; intros; apply O5; bounds). rewrite V4. repeat (rewrite ld4_diff by bounds). reflexivity.
        -- unfold setinfo_call, marg, this. rewrite Eg. cbv zeta. fold hi. unfold arg. unreg. rewrite V4, !V1 by lia. cbn [getr rsp rb rsi rdi p_version p_offs p_idx p_proto p_vfn p]. cbn iota.
           split; [exact T1|]. split; [rda (S0 - 28); rdm; reflexivity|]. split; [rda (S0 - 24); rdm; reflexivity|]. split; [rda (S0 - 20); rdm; reflexivity|]. split; [rda (S0 - 16); rdm; reflexivity|]. split; [rda (S0 - 12); rdm; reflexivity|]. split; [rda (S0 - 8); rdm; reflexivity|].
           split; [intros x X1 X2; fold S0 in X2; repeat (rewrite st4_out by bounds); apply M2; assumption|].
           split; [exact E2|]. split; [exact E3|]. split; [exact E4|]. split; [exact V2|]. fold S0. replace (S0 - 32) with (S0 + (-2) * 16) by lia. apply Z_mod_plus_full.
    + do 6 go. repeat (rewrite ld4_diff in I0 by bounds). go. repeat (rewrite ld4_diff in I by bounds). rewrite Rb in I.
      unreg. eapply (X_call _ _ _ _ _ _ _ _ _ _ _ _ _ I); [lia | side |]. intros e v T1 T2 T3. regs_cbn.
      pose proof (Hret (length tr) (e_target e) (e_in e) (proj2 (proj2 (proj2 (proj2 T2))))) as HR. rewrite <- T3 in HR.
      destruct T2 as (V1 & V2 & V3 & V4 & V5). destruct HR as (O1 & O2 & O3 & O4 & O5).
      pose proof (is_self _ O1) as Io. unfold ESP in *.
      rewrite (V1 4) in O4, O5 by lia. cbn [getr rsp] in O4, O5. cbn iota in O4, O5. rewrite (w32_is _ (S0 - 4)) in O4. 2:bounds. 2:bounds.
      assert (Sv : forall r, In r nonvolatile -> rg (e_out e) r = getr (R8 (ld4 (pub_mem p s0) (ld4 (pub_mem p s0) hi)) hi (ld4 m2 hi) qb (S0 - 28) (S0 - 4) qsi qdi) r).
      { intros r Hr. rewrite (O2 r Hr). apply V1. unfold nonvolatile in Hr. unreg. cbn [In] in Hr. lia. }
      rewrite O4, (Sv 3), (Sv 5), (Sv 6), (Sv 7) in Io by (unfold nonvolatile; cbn [In]; unreg; tauto). regs_cbn.
      eapply run_tail; [eassumption | congruence | reflexivity | assumption | assumption | assumption | | |].
      * unreg. rewrite <- L1. rewrite (ld4_ext _ (mm (e_in e))) by (try bounds; intros; apply O5; bounds). rewrite V4. unfold m2. repeat (rewrite ld4_diff by bounds). reflexivity.
      * rewrite <- L2. rewrite (ld4_ext _ (mm (e_in e))) by (try bounds; intros; apply O5; bounds). rewrite V4. repeat (rewrite ld4_diff by bounds). reflexivity.
      * intros q G1 G2 G3 G4 G5 G6. unfold F, final. split; [exact G1|]. split; [exact G2|]. split; [exact G3|]. split; [exact G4|]. split; [exact G5|].
        split; [| split; [exact Nz | split; [| exact G6]]].
        -- rewrite G6, <- L2. rewrite (ld4_ext _ (mm (e_in e))) by (try bounds; intros; apply O5; bounds). rewrite V4. repeat (rewrite ld4_diff by bounds). reflexivity.
        -- unfold setinfo_call, marg, this. rewrite Eg. cbv zeta. fold hi. unfold arg. unreg. rewrite V4, !V1 by lia. cbn [getr rsp rb rsi rdi p_version p_offs p_idx p_proto p_vfn p]. cbn iota.
           split; [exact T1|]. split; [reflexivity|]. split; [rda (S0 - 24); rdm; reflexivity|]. split; [rda (S0 - 20); rdm; reflexivity|]. split; [rda (S0 - 16); rdm; reflexivity|]. split; [rda (S0 - 12); rdm; reflexivity|]. split; [rda (S0 - 8); rdm; reflexivity|].
           split; [intros x X1 X2; fold S0 in X2; repeat (rewrite st4_out by bounds); apply M2; assumption|].
           split; [exact E2|]. split; [exact E3|]. split; [exact E4|]. split; [exact V2|]. fold S0. replace (S0 - 28) with (S0 + (-7) * 4) by lia. apply Z_mod_plus_full.
Qed.

Lemma run_pub s tr : s = s0 -> W (pub_list gcc k) s tr F.
Proof.
  intros Es. pose proof (is_self s0 Hwf) as Is. unfold pub_list, pub1. cbn [app]. pose proof okS as HS. unfold okr in HS.
  rewrite <- Es in Is at 1. change (rg s0 4) with S0 in Is. clear Es.
  do 4 go. fold m1 in I0.
  assert (X0 : ld m1 (S0 + 4) 1 = ld (mm s0) (S0 + 4) 1) by (unfold m1, st4; apply ld_sto_diff; bounds).
  assert (X1 : ld4 m1 (S0 + 8) = arg s0 1) by (rewrite arg1_is; unfold m1; apply ld4_diff; bounds).
  rewrite X0, X1 in I0. clear X0 X1.
  eapply (X_test8_jz _ _ _ _ _ _ _ _ _ _ _ _ _ I0 _ EAX _ _ (negb (store_flag s0))); [reflexivity | | reflexivity | unfold EAX; lia | |].
  { change (off (pub2 k)) with 8. cbn [asm_ok]. unfold CC_Z, cond_ok, int8_ok. lia. }
  { unreg. cbn [getr ra]. rewrite arg0_is. unfold store_flag. rewrite negb_involutive. reflexivity. }
  intros s' Is'. clear I0.
  destruct (bool_dec (store_flag s0) true) as [Ef|Ef]; [|apply not_true_is_false in Ef]; rewrite Ef; cbn [negb].
  - unfold pub2. cbn [app]. destruct Hk as (K1 & _). go. go.
    eapply run_rest; [eassumption | unfold m2; rewrite Ef; reflexivity | reflexivity ..].
  - eapply run_rest; [eassumption | unfold m2; rewrite Ef; reflexivity | reflexivity ..].
Qed.
End Pub.

Lemma set_pc_same s n : pc s = n -> set_pc s n = s.
Proof. destruct s. cbn. intros ->. reflexivity. Qed.

(** ** Every run of the public function *)
Theorem pub_run u base env gcc k s0 :
  consts_ok k -> wf s0 -> 2 ^ 12 <= rg s0 ESP < W32 - 2 ^ 12 -> pc s0 = 0 ->
  ~ (rg s0 ESP - 36 < w32 (k_phi k) < rg s0 ESP + 12) /\ w32 (k_phi k) <= W32 - 4 ->
  (forall n t s, wf s -> setinfo_returns gcc s (env n t s)) ->
  let p := PubInfo (k_phi k) 1 (k_offs k) (k_idx k) (k_pi k) (k_vfn k) in
  (arg s0 1 <> 0 -> let m := pub_mem p s0 in let hi := arg s0 1 in
    hi <= W32 - 4 /\ ~ (rg s0 ESP - 36 < hi < rg s0 ESP) /\ ld4 m hi <= W32 - 4 /\ ~ (rg s0 ESP - 36 < ld4 m hi < rg s0 ESP)) ->
  exists tr s, reaches u base env (pub_func gcc k) (s0, []) (s, tr) /\ final gcc k s0 (pub_list gcc k) tr s.
Proof.
  intros Hk Hwf Hsp Hpc Hphi Hret p Hhi. rewrite pub_func_list.
  destruct (run_pub u base env gcc k s0 Hk Hwf Hsp Hphi Hret (pub_list gcc k) Hhi s0 [] eq_refl) as (tr & s & o & R & H).
  - exists []. reflexivity.
  - exists tr, s. split; [|exact H]. rewrite Z.sub_diag in R. rewrite (set_pc_same s0 0 Hpc) in R. exact R.
Qed.
