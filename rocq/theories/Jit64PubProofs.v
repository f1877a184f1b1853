(** Execution of the generated public function. *)
From Coq Require Import List ZArith Bool Lia.
From Verif Require Import TrampModel ProtoModel GenModel Asm64Model Asm64Spec Asm64Proofs Mach64 Mach64Proofs Jit64Model Jit64Spec Jit64Base.
Import ListNotations.
Local Open Scope Z_scope.
Notation length := List.length.

Definition consts_ok (k : consts) : Prop :=
  uint64_ok (k_phi k) /\ uint64_ok (k_sh k) /\ uint64_ok (k_setup k) /\ uint64_ok (k_end k) /\ uint64_ok (k_pi k) /\ uint64_ok (k_vfn k) /\
  int32_ok (k_offs k) /\ int32_ok (k_idx k) /\ 0 <= k_idx k < 2 ^ 20 /\
  (0 <= i_setinfo k < 2 ^ 20) /\ (0 <= i_next k < 2 ^ 20) /\ (0 <= i_call k < 2 ^ 20) /\ (0 <= i_over k < 2 ^ 20) /\
  (0 <= i_orig k < 2 ^ 20) /\ (0 <= i_should k < 2 ^ 20).

(** ** Single instructions *)
Lemma ex_movru r v s : uint64_ok v -> exec1 (meaning (AMovRU r v)) s = Some (set_rg s r v).
Proof.
  intros H. cbn [meaning]. destruct (Z.ltb_spec v (2 ^ 32)); [|reflexivity].
  cbn [exec1]. unfold w32. rewrite Z.mod_small; [reflexivity|]. unfold uint64_ok in H. lia.
Qed.
Lemma xs_cons a l s s1 : exec1 (meaning a) s = Some s1 -> xs (a :: l) s = xs l s1.
Proof. intros H. cbn [xs]. rewrite H. reflexivity. Qed.
Ltac x1 := match goal with |- context [xs (?a :: ?l) ?s] => rewrite (xs_cons a l s _ eq_refl) end.

Definition pub1 : list asm := [ASubRI RSP 56; AMovRR R8 RCX; AMovRR R9 RDX; ATestRI R8 1].
Definition pub2 (k : consts) : list asm := [AMovRU RAX (k_phi k); AMovMR (Rm RAX 0) R9].
Definition pub3 : list asm := [ATestRR R9 R9].
Definition pub4 (k : consts) : list asm :=
  [AMovRM RAX (Rm R9 0); AMovRM RAX (Rm RAX (SIZE_PTR * i_setinfo k));
   AMovRR RCX R9; AMovRI RDX HOOKMAN_VERSION; AMovRI R8 (k_offs k); AMovRI R9 (k_idx k);
   AMovRU R10 (k_pi k); AMovMR (Rm RSP 32) R10; AMovRU R10 (k_vfn k); AMovMR (Rm RSP 40) R10].
Definition pub5 : list asm := [AAddRI RSP 56; AXorRR RAX RAX].
Definition d1 (k : consts) : Z := off (pub2 k).
Definition d2 (k : consts) : Z := off (pub4 k ++ [ACall RAX]).
Definition pub_list (k : consts) : list asm :=
  pub1 ++ [AJz (d1 k)] ++ pub2 k ++ pub3 ++ [AJz (d2 k)] ++ pub4 k ++ [ACall RAX] ++ pub5 ++ [ARet].

Lemma pub_func_list k : pub_func k = emit_all (pub_list k).
Proof.
  unfold pub_func.
  set (b1 := put [] _). assert (E1 : b1 = emit_all (pub1 ++ [AJz 0])) by reflexivity.
  set (b2 := put b1 _). assert (E2 : b2 = emit_all (pub1 ++ AJz 0 :: pub2 k)).
  { unfold b2. rewrite E1, put_emit, <- app_assoc. reflexivity. }
  set (b3 := rewrite32 b2 _ _). assert (E3 : b3 = emit_all (pub1 ++ AJz (d1 k) :: pub2 k)).
  { unfold b3. rewrite E1, E2, !opos_emit, (patch AJz pub1 (pub2 k) 0) by exact jumpy_jz. f_equal. f_equal. f_equal. f_equal.
    change (AJz 0 :: pub2 k) with ([AJz 0] ++ pub2 k). rewrite !off_app. unfold d1. lia. }
  set (q := pub1 ++ AJz (d1 k) :: pub2 k) in E3.
  set (b4 := put b3 _). assert (E4 : b4 = emit_all ((q ++ pub3) ++ [AJz 0])).
  { unfold b4. rewrite E3, put_emit, <- app_assoc. reflexivity. }
  set (b5 := put b4 _). assert (E5 : b5 = emit_all ((q ++ pub3) ++ AJz 0 :: (pub4 k ++ [ACall RAX]))).
  { unfold b5. rewrite E4, put_emit, <- !app_assoc. reflexivity. }
  set (b6 := rewrite32 b5 _ _). assert (E6 : b6 = emit_all ((q ++ pub3) ++ AJz (d2 k) :: (pub4 k ++ [ACall RAX]))).
  { unfold b6. rewrite E4, E5, !opos_emit, (patch AJz (q ++ pub3) (pub4 k ++ [ACall RAX]) 0) by exact jumpy_jz. f_equal. f_equal. f_equal. f_equal.
    change (AJz 0 :: pub4 k ++ [ACall RAX]) with ([AJz 0] ++ (pub4 k ++ [ACall RAX])). rewrite !(off_app (q ++ pub3)), (off_app [AJz 0]). unfold d2. lia. }
  cbv zeta. rewrite E6, put_emit. unfold pub_list, q. rewrite <- !app_assoc. reflexivity.
Qed.

(** ** Execution *)
Lemma emit_short a : (length (emit a) <= 16)%nat.
Proof.
  assert (M : forall m r, (length (write_modrm m r) <= 6)%nat).
  { intros m r. unfold write_modrm, i8, i32. rewrite !app_length. cbn [length].
    repeat match goal with |- context [if ?b then _ else _] => destruct b end; rewrite ?le_length; cbn [length]; lia. }
  assert (B : forall r, (length (pre_B r) <= 1)%nat) by (intros r; unfold pre_B; destruct (extended r); cbn; lia).
  assert (WB : forall r, (length (pre_WB r) = 1)%nat) by (intros r; unfold pre_WB; destruct (extended r); reflexivity).
  assert (I8 : forall x, length (i8 x) = 1%nat) by (intros; apply le_length).
  assert (I32 : forall x, length (i32 x) = 4%nat) by (intros; apply le_length).
  assert (I64 : forall x, length (i64 x) = 8%nat) by (intros; apply le_length).
  destruct a; cbn [emit];
    unfold breakpoint, rep_movs_bytes, call_r, jump_r, jump_i, jz, jl, jle, je, jne, push_r, push_i, pop_r, mov_rr, mov_mr, mov_rm, mov_ri, mov_mi, mov_ru,
      movsd_xm, movsd_mx, add_rr, add_ri, sub_rr, sub_ri, xor_rr, test_rr, test_ri, cmovne_rm, cmovne_rr, cmovge_rm, cmovge_rr, cmovg_rm, cmovg_rr, Asm64Model.lea, cmp_rm, cmp_mr, cmp_rr, cmp_ri, retn, mov_ri;
    repeat match goal with |- context [if ?b then _ else _] => destruct b end;
    rewrite ?app_length; cbn [length]; rewrite ?app_length, ?WB, ?I8, ?I32, ?I64; cbn [length];
    repeat match goal with |- context [pre_B ?r] => pose proof (B r); generalize dependent (length (pre_B r)); intros end;
    repeat match goal with |- context [write_modrm ?m ?r] => pose proof (M m r); generalize dependent (length (write_modrm m r)); intros end;
    lia.
Qed.
Lemma off_short l : off l <= 16 * Z.of_nat (length l).
Proof.
  induction l as [|a l IH]; [cbn; lia|].
  replace (a :: l) with ([a] ++ l) by reflexivity. rewrite off_app, app_length. pose proof (emit_short a).
  unfold off at 1. rewrite emit_all_cons. change (emit_all []) with (@nil Z). rewrite app_nil_r. cbn [length]. lia.
Qed.
Ltac inr := unfold int32_ok, uint64_ok, reg_ok in *; lia.
Ltac rok := repeat (apply Forall_cons; [cbn [asm_ok]; unfold rm_ok, reg_ok, int32_ok, uint64_ok, RAX, RCX, RDX, RBX, RSP, RBP, RSI, RDI, R8, R9, R10, SIZE_PTR, HOOKMAN_VERSION in *; cbn [rm_reg rm_disp]; try (intuition lia)|]); try apply Forall_nil.

Lemma odd_land x : 0 <= x -> (Z.land x 1 =? 0) = negb (Z.odd x).
Proof.
  intros H. change 1 with (Z.ones 1). rewrite Z.land_ones by lia. change (2 ^ 1) with 2. rewrite Zmod_odd.
  destruct (Z.odd x); reflexivity.
Qed.
Definition res_rg (f : Z -> Z) (s : st) : Prop := forall r, rg s r = f r.

Section Pub.
Variables (base : Z) (env : nat -> Z -> st -> st) (k : consts) (s0 : st).
Hypothesis Hk : consts_ok k.
Hypothesis Hwf : wf s0.
Hypothesis Hal : aligned s0.
Hypothesis Hsp : 2 ^ 12 <= rg s0 RSP < W64 - 2 ^ 12.
Hypothesis Hpc : pc s0 = 0.
Let p := PubInfo (k_phi k) (i_setinfo k) HOOKMAN_VERSION (k_offs k) (k_idx k) (k_pi k) (k_vfn k).
Let code := emit_all (pub_list k).
Let hi := rg s0 RDX.

Notation go := (reaches base env code).

Lemma hi_arg : arg s0 1 = hi. Proof. reflexivity. Qed.

Lemma pub_ok4 : Forall asm_ok (pub4 k) /\ Forall asm_ok (pub2 k).
Proof.
  destruct Hk as (H1 & H2 & H3 & H4 & H5 & H6 & H7 & H8 & H9 & H10 & H11 & H12 & H13 & H14 & H15).
  split; unfold pub4, pub2; rok.
Qed.
Lemma d1_ok : int32_ok (d1 k).
Proof.
  unfold d1, int32_ok. pose proof (off_nonneg (pub2 k)). pose proof (off_short (pub2 k)) as S. cbn [pub2 length] in S. lia.
Qed.
Lemma d2_ok : int32_ok (d2 k).
Proof.
  unfold d2, int32_ok. pose proof (off_nonneg (pub4 k ++ [ACall RAX])).
  pose proof (off_short (pub4 k ++ [ACall RAX])) as S. rewrite app_length in S. cbn [pub4 length] in S. lia.
Qed.

(** the first part: rsp, the two parameters in r8 and r9 *)
Definition after1 (s : st) : Prop :=
  (forall r, rg s r = if r =? RSP then rg s0 RSP - 56 else if r =? R8 then rg s0 RCX else if r =? R9 then hi else rg s0 r) /\
  mm s = mm s0 /\ zf s = negb (store_flag s0) /\ (forall x, xm s x = xm s0 x).
Lemma run1 : exists s, go (s0, []) (s, []) /\ pc s = off pub1 /\ after1 s.
Proof.
  destruct Hwf as (Hr & _ & _).
  assert (E : exists s, xs pub1 s0 = Some s /\ after1 s).
  { eexists. split; [reflexivity|]. unfold after1. cbn [set_rg set_mm set_fl rg mm zf sf xm flags].
    split; [|split; [reflexivity|split; [|reflexivity]]].
    - intros r. unfold upd. change (w64 56) with 56.
      unfold R8, R9, RSP, RCX, RDX in *. unfold hi, RDX.
      destruct (Z.eqb_spec r 9) as [-> |]; [reflexivity|].
      destruct (Z.eqb_spec r 8) as [-> |]; [reflexivity|].
      destruct (Z.eqb_spec r 4) as [-> |]; [|reflexivity]. rewrite w64_small; [reflexivity|]. specialize (Hr 4). lia.
    - unfold upd. cbn [Z.eqb R8 R9 RCX RDX RSP Pos.eqb]. change (w64 1) with 1. unfold store_flag.
      rewrite odd_land by apply Hr. reflexivity. }
  destruct E as (s & E & A). exists (set_pc s (off pub1)). split; [|split; [reflexivity|exact A]].
  apply (run_block base env pub1 [] ([AJz (d1 k)] ++ pub2 k ++ pub3 ++ [AJz (d2 k)] ++ pub4 k ++ [ACall RAX] ++ pub5 ++ [ARet]) s0 s []);
    [unfold pub1; rok|reflexivity|rewrite Hpc; reflexivity|exact E].
Qed.

(** after the first condition: memory is [pub_mem] *)
Definition after2 (s : st) : Prop :=
  (forall r, r <> RAX -> rg s r = if r =? RSP then rg s0 RSP - 56 else if r =? R8 then rg s0 RCX else if r =? R9 then hi else rg s0 r) /\
  mm s = pub_mem p s0 /\ zf s = (hi =? 0) /\ (forall x, xm s x = xm s0 x).
Definition pre2 : list asm := pub1 ++ [AJz (d1 k)].
Definition pre3 : list asm := pre2 ++ pub2 k.
Definition pre4 : list asm := pre3 ++ pub3 ++ [AJz (d2 k)].
Lemma run2 : exists s, go (s0, []) (s, []) /\ pc s = off (pre3 ++ pub3) /\ after2 s.
Proof.
  destruct run1 as (s1 & G1 & P1 & A1). destruct A1 as (R1 & M1 & Z1 & X1).
  assert (J : go (s1, []) (set_pc s1 (if store_flag s0 then off pre2 else off pre3), [])).
  { pose proof (run_jcc base env (AJz (d1 k)) CE (d1 k) pub1 (pub2 k ++ pub3 ++ [AJz (d2 k)] ++ pub4 k ++ [ACall RAX] ++ pub5 ++ [ARet]) s1 [] eq_refl d1_ok P1) as J.
    cbn [holds] in J. rewrite Z1 in J. fold pre2 in J.
    replace (off pre2 + d1 k) with (off pre3) in J by (unfold pre3, d1; rewrite off_app; lia).
    destruct (store_flag s0); exact J. }
  assert (K : exists s, go (s0, []) (s, []) /\ pc s = off pre3 /\
    (forall r, r <> RAX -> rg s r = if r =? RSP then rg s0 RSP - 56 else if r =? R8 then rg s0 RCX else if r =? R9 then hi else rg s0 r) /\
    mm s = pub_mem p s0 /\ (forall x, xm s x = xm s0 x)).
  { unfold pub_mem. destruct (store_flag s0) eqn:SF.
    - assert (E : exists s, xs (pub2 k) (set_pc s1 (off pre2)) = Some s /\
        (forall r, r <> RAX -> rg s r = rg s1 r) /\ mm s = st8 (mm s0) (p_phi p) hi /\ (forall x, xm s x = xm s0 x)).
      { destruct Hk as (H1 & _). unfold pub2. rewrite (xs_cons _ _ _ _ (ex_movru RAX (k_phi k) _ H1)).
        eexists. split; [reflexivity|]. cbn [set_rg set_mm rg mm xm set_pc].
        split; [intros r Hr; apply upd_diff; exact Hr|]. split; [|exact X1].
        rewrite M1. cbn [rm_reg rm_disp]. rewrite upd_same, upd_diff by discriminate. rewrite R1.
        rewrite !Z.add_0_r. rewrite w64_small by exact H1. reflexivity. }
      destruct E as (s & E & ER & EM & EX). exists (set_pc s (off pre3)).
      split; [|split; [reflexivity|split; [|split; [exact EM|exact EX]]]].
      + eapply reaches_trans; [exact G1|]. eapply reaches_trans; [exact J|].
        pose proof (run_block base env (pub2 k) pre2 (pub3 ++ [AJz (d2 k)] ++ pub4 k ++ [ACall RAX] ++ pub5 ++ [ARet]) (set_pc s1 (off pre2)) s [] (proj2 pub_ok4) eq_refl eq_refl E) as B.
        replace (pre2 ++ pub2 k ++ pub3 ++ [AJz (d2 k)] ++ pub4 k ++ [ACall RAX] ++ pub5 ++ [ARet]) with (pub_list k) in B by (unfold pre2, pub_list; rewrite <- !app_assoc; reflexivity).
        exact B.
      + intros r Hr. cbn [set_pc rg]. rewrite ER by exact Hr. apply R1.
    - exists (set_pc s1 (off pre3)). split; [eapply reaches_trans; [exact G1|exact J]|].
      split; [reflexivity|]. split; [intros r _; apply R1|]. split; [exact M1|exact X1]. }
  destruct K as (s & G & P & R & M & X).
  exists (set_pc (flags s (Z.land (rg s R9) (rg s R9)) false) (off (pre3 ++ pub3))).
  split; [|split; [reflexivity|]].
  - eapply reaches_trans; [exact G|].
    pose proof (run_block base env pub3 pre3 ([AJz (d2 k)] ++ pub4 k ++ [ACall RAX] ++ pub5 ++ [ARet]) s
      (flags s (Z.land (rg s R9) (rg s R9)) false) [] ltac:(unfold pub3; rok) eq_refl P eq_refl) as B.
    replace (pre3 ++ pub3 ++ [AJz (d2 k)] ++ pub4 k ++ [ACall RAX] ++ pub5 ++ [ARet]) with (pub_list k) in B by (unfold pre3, pre2, pub_list; rewrite <- !app_assoc; reflexivity).
    exact B.
  - unfold after2. cbn [set_pc flags set_fl rg mm zf xm]. split; [exact R|]. split; [exact M|]. split; [|exact X].
    rewrite Z.land_diag. rewrite R by (unfold R9, RAX; lia). reflexivity.
Qed.

(** the call and the way back *)
Hypothesis Henv : forall n t s, saved s (env n t s).
Definition pre5 : list asm := pre4 ++ pub4 k ++ [ACall RAX].
Definition returns (tr : list event) (s : st) : Prop :=
  at_ret code s /\ rg s RSP = rg s0 RSP /\ rg s RAX = 0 /\ saved s0 s /\
  mm s = match tr with [] => pub_mem p s0 | e :: _ => mm (e_out e) end.
Lemma run5 s tr : pc s = off pre5 -> rg s RSP = rg s0 RSP - 56 -> (forall r, In r nonvolatile -> rg s r = rg s0 r) ->
  mm s = match tr with [] => pub_mem p s0 | e :: _ => mm (e_out e) end ->
  exists s', go (s, tr) (s', tr) /\ returns tr s'.
Proof.
  intros P R N M.
  assert (E : exists s', xs pub5 s = Some s' /\ rg s' RSP = rg s0 RSP /\ rg s' RAX = 0 /\ (forall r, In r nonvolatile -> rg s' r = rg s r) /\ mm s' = mm s).
  { eexists. split; [reflexivity|]. cbn [set_rg set_mm set_fl rg mm flags]. change (w64 56) with 56.
    split; [|split; [|split; [|reflexivity]]].
    - rewrite upd_diff by discriminate. rewrite upd_same, R. rewrite w64_small by lia. lia.
    - rewrite upd_same. apply Z.lxor_nilpotent.
    - intros r Hr. rewrite !upd_diff; [reflexivity| |]; intros ->; cbn in Hr; intuition discriminate. }
  destruct E as (s' & E & ES & EA & EN & EM).
  exists (set_pc s' (off (pre5 ++ pub5))). split; [|split].
  - pose proof (run_block base env pub5 pre5 [ARet] s s' tr ltac:(unfold pub5; rok) eq_refl P E) as B.
    replace (pre5 ++ pub5 ++ [ARet]) with (pub_list k) in B by (unfold pre5, pre4, pre3, pre2, pub_list; rewrite <- !app_assoc; reflexivity).
    exact B.
  - pose proof (ret_at (pre5 ++ pub5) [] (set_pc s' (off (pre5 ++ pub5))) eq_refl) as A.
    replace ((pre5 ++ pub5) ++ [ARet]) with (pub_list k) in A by (unfold pre5, pre4, pre3, pre2, pub_list; rewrite <- !app_assoc; reflexivity).
    exact A.
  - cbn [set_pc rg mm]. split; [exact ES|]. split; [exact EA|]. split; [intros r Hr; cbn [set_pc rg]; rewrite EN by exact Hr; apply N, Hr|].
    rewrite EM. exact M.
Qed.

Lemma run_pub : exists tr s, go (s0, []) (s, tr) /\ returns tr s /\
  match tr with [] => hi = 0 | [e] => hi <> 0 /\ setinfo_call p s0 e | _ => False end.
Proof.
  destruct Hwf as (Hr & Hx & Hm).
  destruct run2 as (s2 & G2 & P2 & R2 & M2 & Z2 & X2).
  pose proof (run_jcc base env (AJz (d2 k)) CE (d2 k) (pre3 ++ pub3) (pub4 k ++ [ACall RAX] ++ pub5 ++ [ARet]) s2 [] eq_refl d2_ok P2) as J.
  cbn [holds] in J. rewrite Z2 in J.
  replace ((pre3 ++ pub3) ++ AJz (d2 k) :: pub4 k ++ [ACall RAX] ++ pub5 ++ [ARet]) with (pub_list k) in J by (unfold pre3, pre2, pub_list; rewrite <- !app_assoc; reflexivity).
  replace ((pre3 ++ pub3) ++ [AJz (d2 k)]) with pre4 in J by (unfold pre4; rewrite <- !app_assoc; reflexivity).
  replace (off pre4 + d2 k) with (off pre5) in J by (unfold pre5, d2; rewrite (off_app pre4); lia).
  destruct (Z.eqb_spec hi 0) as [Eh|Nh].
  - assert (NV : forall r, In r nonvolatile -> rg (set_pc s2 (off pre5)) r = rg s0 r).
    { intros r Hin. cbn [set_pc rg]. rewrite R2 by (intros ->; cbn in Hin; intuition discriminate).
      cbn in Hin. decompose [or] Hin; subst; try reflexivity; contradiction. }
    destruct (run5 (set_pc s2 (off pre5)) [] eq_refl) as (s & G & Rt).
    + cbn [set_pc rg]. rewrite R2 by discriminate. reflexivity.
    + exact NV.
    + exact M2.
    + exists [], s. split; [|split; [exact Rt|exact Eh]].
      eapply reaches_trans; [exact G2|]. eapply reaches_trans; [exact J|exact G].
  - set (m := pub_mem p s0) in *.
    assert (Hb : bytes_ok m).
    { unfold m, pub_mem. destruct (store_flag s0); [apply st8_bytes|]; exact Hm. }
    destruct Hk as (K1 & K2 & K3 & K4 & K5 & K6 & K7 & K8 & K9 & K10 & _).
    assert (E : exists s, xs (pub4 k) (set_pc s2 (off pre4)) = Some s /\
      rg s RSP = rg s0 RSP - 56 /\ rg s RAX = ld8 m (w64 (ld8 m hi + 8 * i_setinfo k)) /\
      rg s RCX = hi /\ rg s RDX = w32 HOOKMAN_VERSION /\ rg s R8 = w32 (k_offs k) /\ rg s R9 = w32 (k_idx k) /\
      (forall r, In r nonvolatile -> rg s r = rg s0 r) /\
      mm s = st8 (st8 m (rg s0 RSP - 24) (k_pi k)) (rg s0 RSP - 16) (k_vfn k)).
    { unfold pub4. do 6 x1.
      rewrite (xs_cons _ _ _ _ (ex_movru R10 (k_pi k) _ K5)). x1.
      rewrite (xs_cons _ _ _ _ (ex_movru R10 (k_vfn k) _ K6)). x1.
      eexists. split; [reflexivity|]. cbn [set_rg set_mm rg mm xm set_pc rm_reg rm_disp].
      rewrite M2. assert (E9 : rg s2 R9 = hi) by (rewrite R2 by discriminate; reflexivity).
      assert (E4 : rg s2 RSP = rg s0 RSP - 56) by (rewrite R2 by discriminate; reflexivity).
      unfold upd, RSP, RAX, RCX, RDX, R8, R9, R10 in *. cbn [Z.eqb Pos.eqb].
      rewrite E9, E4. rewrite !Z.add_0_r. rewrite (w64_small hi) by (apply Hr).
      split; [reflexivity|]. split; [reflexivity|]. split; [reflexivity|]. split; [reflexivity|].
      split; [apply Z.mod_mod; lia|]. split; [apply Z.mod_mod; lia|].
      split.
      - intros r Hin. cbn in Hin. unfold RSP, RAX, RCX, RDX, R8, R9, R10, RBX, RBP, RSI, RDI in *.
        decompose [or] Hin; subst; try contradiction; cbn [Z.eqb Pos.eqb]; rewrite R2 by discriminate; reflexivity.
      - rewrite !w64_small by (unfold W64 in *; lia).
        replace (rg s0 4 - 56 + 32) with (rg s0 4 - 24) by lia. replace (rg s0 4 - 56 + 40) with (rg s0 4 - 16) by lia. reflexivity. }
    destruct E as (s4 & E & S4 & A4 & C4 & D4 & E84 & E94 & N4 & M4).
    pose proof (run_block base env (pub4 k) pre4 ([ACall RAX] ++ pub5 ++ [ARet]) (set_pc s2 (off pre4)) s4 [] (proj1 pub_ok4) eq_refl eq_refl E) as B4.
    replace (pre4 ++ pub4 k ++ [ACall RAX] ++ pub5 ++ [ARet]) with (pub_list k) in B4 by (unfold pre4, pre3, pre2, pub_list; rewrite <- !app_assoc; reflexivity).
    set (s4' := set_pc s4 (off (pre4 ++ pub4 k))) in *.
    pose proof (run_call base env RAX (pre4 ++ pub4 k) (pub5 ++ [ARet]) s4' [] ltac:(unfold reg_ok, RAX; lia) eq_refl) as C.
    cbv zeta in C. cbn [app length] in C.
    replace ((pre4 ++ pub4 k) ++ ACall RAX :: pub5 ++ [ARet]) with (pub_list k) in C by (unfold pre4, pre3, pre2, pub_list; rewrite <- !app_assoc; reflexivity).
    replace ((pre4 ++ pub4 k) ++ [ACall RAX]) with pre5 in C by (unfold pre5; rewrite <- !app_assoc; reflexivity).
    set (e := Ev _ _ _) in C.
    set (s5 := call_out s4' _ _) in C.
    assert (S5 : rg (e_in e) RSP = rg s0 RSP - 64).
    { change (w64 (rg s4 RSP - 8) = rg s0 RSP - 64). rewrite S4, w64_small by lia. lia. }
    assert (NE : forall r, r <> RSP -> rg (e_in e) r = rg s4 r).
    { intros r Hne. change (upd (rg s4) RSP (w64 (rg s4 RSP - 8)) r = rg s4 r). apply upd_diff, Hne. }
    assert (ME : exists v, mm (e_in e) = st8 (mm s4) (rg s0 RSP - 64) v).
    { eexists. change (mm (e_in e)) with (st8 (mm s4) (w64 (rg s4 RSP - 8)) (w64 (base + off pre5))).
      rewrite S4, w64_small by lia. replace (rg s0 RSP - 56 - 8) with (rg s0 RSP - 64) by lia. reflexivity. }
    destruct ME as (v & ME).
    assert (nvsp : forall r, In r nonvolatile -> r <> RSP) by (intros r Hin ->; cbn in Hin; intuition discriminate).
    destruct (run5 s5 [e]) as (s & G & Rt).
    + reflexivity.
    + change (w64 (rg s4 RSP - 8 + 8) = rg s0 RSP - 56). rewrite S4, w64_small by lia. lia.
    + intros r Hin. unfold s5, call_out. cbn [set_pc set_rg rg]. rewrite upd_diff by (apply nvsp, Hin).
      rewrite (Henv _ _ _ r Hin). change (rg (e_in e) r = rg s0 r). rewrite NE by (apply nvsp, Hin). apply N4, Hin.
    + reflexivity.
    + exists [e], s. split; [|split; [exact Rt|split; [exact Nh|]]].
      * eapply reaches_trans; [exact G2|]. eapply reaches_trans; [exact J|]. eapply reaches_trans; [exact B4|].
        eapply reaches_trans; [exact C|exact G].
      * unfold setinfo_call. fold m. change (arg s0 1) with hi.
        split; [exact A4|]. split; [unfold aligned in *; rewrite S5; replace (rg s0 RSP - 64 + 8) with (rg s0 RSP + 8 + (-4) * 16) by lia; rewrite Z.mod_add by lia; exact Hal|].
        split; [change (rg (e_in e) RCX = hi); rewrite NE by discriminate; exact C4|].
        split; [unfold arg32; change (arg (e_in e) 1) with (rg (e_in e) RDX); rewrite NE by discriminate; rewrite D4; reflexivity|].
        assert (W : forall z, w32 (w32 z) = w32 z) by (intros z; apply Z.mod_mod; lia).
        split; [unfold arg32; change (arg (e_in e) 2) with (rg (e_in e) R8); rewrite NE by discriminate; rewrite E84; apply W|].
        split; [unfold arg32; change (arg (e_in e) 3) with (rg (e_in e) R9); rewrite NE by discriminate; rewrite E94; apply W|].
        unfold uint64_ok in *.
        split; [|split; [|split]].
        -- unfold arg. cbn [Nat.ltb Nat.leb]. rewrite S5, ME, M4. replace (rg s0 RSP - 64 + 8 + 8 * Z.of_nat 4) with (rg s0 RSP - 24) by lia.
           do 2 (rewrite ld8_st8_diff by lia). apply ld8_st8_same; [lia|lia|assumption].
        -- unfold arg. cbn [Nat.ltb Nat.leb]. rewrite S5, ME, M4. replace (rg s0 RSP - 64 + 8 + 8 * Z.of_nat 5) with (rg s0 RSP - 16) by lia.
           rewrite ld8_st8_diff by lia. apply ld8_st8_same; [lia|lia|assumption].
        -- intros x Hxx. rewrite ME, M4. rewrite !st8_out by lia. reflexivity.
        -- intros r Hin. rewrite NE by (apply nvsp, Hin). apply N4, Hin.
Qed.
End Pub.
