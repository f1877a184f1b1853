(** The stack frame of the hook function. *)
From Coq Require Import List ZArith Bool Lia.
From Verif Require Import TrampModel ProtoModel GenModel Asm64Model Asm64Spec Asm64Proofs Mach64 Mach64Proofs Mach64Mem Jit64Model Jit64Spec Jit64Base Jit64PubProofs Jit64HookSpec Jit64HookList Jit64Run.
Import ListNotations.
Local Open Scope Z_scope.
Notation length := List.length.

(** the space for each value of the type of the result; the bytes of a result in memory *)
Definition area (rk : rkind) : Z := match rk with RMem n => (Z.of_nat n + 15) / 16 * 16 | _ => 16 end.
Definition pn (rk : rkind) : Z := match rk with RMem n => Z.of_nat n | _ => 0 end.
Definition the_vars (rk : rkind) (B : Z) : vars :=
  Vars (B - 16) (B - 24) (B - 32) (B - 40) (B - 80 - area rk) (B - 80 - 2 * area rk) (B - 80 - 3 * area rk).
Definition size_ok (rk : rkind) : Prop := match rk with RMem n => 1 <= Z.of_nat n <= 2 ^ 16 | _ => Z.of_nat (rsize rk) <= 8 end.
Lemma area_facts rk : size_ok rk -> 16 <= area rk <= 2 ^ 16 + 16 /\ area rk mod 16 = 0 /\ 0 <= Z.of_nat (rsize rk) <= area rk /\
  ((pn rk = 0 /\ area rk = 16 /\ Z.of_nat (rsize rk) <= 8 /\ hidden rk = 0%nat) \/
   (0 < pn rk /\ pn rk = Z.of_nat (rsize rk) /\ hidden rk = 1%nat /\ 4 * area rk <= 4 * pn rk + 60)).
Proof.
  intros H. unfold area, pn, size_ok in *. destruct rk as [|n|n|n]; cbn [rsize hidden] in *.
  - split; [lia|]. split; [reflexivity|]. split; [lia|]. left. split; [reflexivity|]. split; [reflexivity|]. split; [lia|reflexivity].
  - split; [lia|]. split; [reflexivity|]. split; [lia|]. left. split; [reflexivity|]. split; [reflexivity|]. split; [lia|reflexivity].
  - split; [lia|]. split; [reflexivity|]. split; [lia|]. left. split; [reflexivity|]. split; [reflexivity|]. split; [lia|reflexivity].
  - split; [Z.div_mod_to_equations; lia|]. split; [apply Z_mod_mult|]. split; [Z.div_mod_to_equations; lia|]. right. split; [lia|]. split; [reflexivity|]. split; [reflexivity|]. Z.div_mod_to_equations; lia.
Qed.

(** Simplification of states after instructions *)
Ltac sst := cbn [rg xm mm zf sf ovf pc set_rg set_xm set_mm set_fl set_pc flags].
Ltac supd := unfold upd; cbn [Z.eqb Pos.eqb RAX RCX RDX RBX RSP RBP RSI RDI R8 R9 R10].
Ltac supd_in H := unfold upd in H; cbn [Z.eqb Pos.eqb RAX RCX RDX RBX RSP RBP RSI RDI R8 R9 R10] in H.

Section Frame.
Variables (pks : list pkind) (rk : rkind) (s0 : st) (fs : Z).
Variable B : Z.
Hypothesis HB : rg s0 RSP = B.
Let n := Z.of_nat (rsize rk).
Let N := Z.of_nat (length pks).
Hypothesis Hwf : wf s0.
Hypothesis Hal : aligned s0.
Hypothesis Hsp : 2 ^ 20 <= B <= W64 - 2 ^ 20.
Hypothesis Hps : N <= 2 ^ 16.
Hypothesis Hn : size_ok rk.
Hypothesis Hfs : fs = match rk with RVoid => 64 | _ => 80 + 4 * area rk end.

Notation Own := (own pks rk s0 (the_vars rk B)).
Notation Agree := (agree pks rk s0 (the_vars rk B)).
Notation Depth := (depth pks rk).
Notation Slots := (slots pks rk).

Definition sh (x : Z) : Prop :=
  B - 16 <= x < B - 8 \/ B - 24 <= x < B - 20 \/ B - 32 <= x < B - 28 \/ B - 40 <= x < B - 36 \/
  B - 80 - area rk <= x < B - 80 - area rk + n \/ B - 80 - 2 * area rk <= x < B - 80 - 2 * area rk + n \/
  B - 80 - 3 * area rk <= x < B - 80 - 3 * area rk + pn rk.
Lemma shared_sh x : shared rk (the_vars rk B) x <-> sh x.
Proof.
  unfold shared, areas, sh, the_vars. cbn [a_orig a_status a_prev a_cur a_oret a_over a_plug]. unfold n, pn. generalize (area rk). intros A.
  rewrite !Exists_app. set (L1 := B - 80 - A). set (L2 := B - 80 - 2 * A). set (L3 := B - 80 - 3 * A).
  destruct rk as [|q|q|q]; cbn [rsize]; rewrite ?Exists_cons, ?Exists_nil; unfold inside; cbn [fst snd]; lia.
Qed.
Lemma own_sh x : Own x <-> (B - Depth <= x < B + 8 + 8 * Slots /\ ~ sh x).
Proof. unfold own. rewrite ?HB. rewrite shared_sh. reflexivity. Qed.
Lemma facts : 16 <= area rk <= 2 ^ 16 + 16 /\ area rk mod 16 = 0 /\ 0 <= n <= area rk /\
  ((pn rk = 0 /\ area rk = 16 /\ n <= 8 /\ hidden rk = 0%nat) \/ (0 < pn rk /\ pn rk = n /\ hidden rk = 1%nat /\ 4 * area rk <= 4 * pn rk + 60)).
Proof. exact (area_facts rk Hn). Qed.
Lemma depth_eq : Depth = 256 + 8 * N + 4 * pn rk.
Proof. unfold depth, pn, N. destruct rk; lia. Qed.
Lemma fs_cases : (fs = 64 /\ n = 0 /\ pn rk = 0) \/ fs = 80 + 4 * area rk.
Proof. rewrite Hfs. unfold n, pn. destruct rk; cbn [rsize]; auto. Qed.
Lemma depth_ge : 256 <= Depth <= 2 ^ 19 + 2 ^ 18 + 256 /\ fs + 112 + 8 * N <= Depth.
Proof. rewrite depth_eq. pose proof facts as (F1 & F2 & F3 & F4). pose proof fs_cases as F5. unfold size_ok in Hn. split; [|lia]. unfold N, pn in *. destruct rk; lia. Qed.
Lemma slots_ge : 4 <= Slots /\ 1 + Z.of_nat (hidden rk) + N <= Slots <= 2 ^ 16 + 4.
Proof. unfold slots, nargs. pose proof facts as (_ & _ & _ & F). unfold N in *. lia. Qed.
Lemma separate_vars : separate pks rk s0 (the_vars rk B).
Proof.
  pose proof depth_ge as D. pose proof facts as (F1 & _ & F3 & F4). pose proof fs_cases as F5. unfold separate, areas, the_vars. cbn [a_orig a_status a_prev a_cur a_oret a_over a_plug]. rewrite ?HB. unfold n, pn in *.
  generalize dependent (area rk). intros A. intros.
  set (dp := depth pks rk) in *. clearbody dp. split.
  - destruct rk as [|q|q|q]; cbn [app rsize] in *; repeat (constructor; [repeat (constructor; [cbn [fst snd]; lia|]); constructor|]); constructor.
  - destruct rk as [|q|q|q]; cbn [app rsize] in *; repeat (constructor; [cbn [fst snd]; lia|]); constructor.
Qed.

(** own bytes, and bytes below the frame *)
Ltac own_tac := apply own_sh; pose proof depth_ge; pose proof slots_ge; pose proof facts as (? & _ & ? & ?); pose proof fs_cases; unfold sh; lia.
Lemma own_below x : B - Depth <= x < B - fs -> Own x.
Proof. intros H. own_tac. Qed.
Definition fixed (x : Z) : Prop :=
  B - 64 <= x < B - 48 \/ B - 36 <= x < B - 32 \/ B - 28 <= x < B - 24 \/ B - 20 <= x < B - 16 \/ B - 8 <= x < B + 8 + 8 * Slots \/
  (0 < pn rk /\ B - 80 <= x < B - 72).
Lemma own_fixed x : fixed x -> Own x /\ B - fs <= x.
Proof. unfold fixed. intros H. pose proof facts as (? & _ & ? & ?); pose proof fs_cases. split; [own_tac|lia]. Qed.
Lemma own_iter x : B - 48 <= x < B - 40 -> Own x.
Proof. intros H. own_tac. Qed.
Lemma own_upper x : (B - 36 <= x < B - 32 \/ B - 28 <= x < B - 24 \/ B - 20 <= x < B - 16) -> Own x.
Proof. intros H. own_tac. Qed.

Lemma agree_refl m : Agree m m. Proof. intros x _. reflexivity. Qed.
Lemma agree_trans m1 m2 m3 : Agree m1 m2 -> Agree m2 m3 -> Agree m1 m3.
Proof. intros H1 H2 x Hx. rewrite H2, H1 by exact Hx. reflexivity. Qed.
Lemma agree_sym m1 m2 : Agree m1 m2 -> Agree m2 m1.
Proof. intros H x Hx. symmetry. apply H, Hx. Qed.
(** a store to own bytes *)
Lemma agree_own m a v : 0 <= a -> a + 8 <= W64 -> (forall x, a <= x < a + 8 -> Own x) -> Agree m (st8 m a v).
Proof. intros H1 H2 H x Hx. apply st8_out; [exact H1|exact H2|]. intros C. exact (Hx (H x C)). Qed.
(** a store of [p] bytes followed by own bytes *)
Lemma agree_sto mu m a p v v' : 0 <= a -> a + 8 <= W64 -> (p <= 8)%nat -> (forall j, 0 <= j < Z.of_nat p -> (v' / 256 ^ j) mod 256 = (v / 256 ^ j) mod 256) ->
  (forall x, a + Z.of_nat p <= x < a + 8 -> Own x) -> Agree mu m -> Agree (sto mu a p v) (st8 m a v').
Proof.
  intros H1 H2 Hp Hv Ho H x Hx. destruct (Z_lt_dec x a) as [L|L].
  - rewrite st8_out, sto_out by lia. apply H, Hx.
  - destruct (Z_lt_dec x (a + Z.of_nat p)) as [L2|L2].
    + rewrite st8_in, sto_in by lia. apply Hv. lia.
    + destruct (Z_lt_dec x (a + 8)) as [L3|L3]; [exfalso; apply Hx, Ho; lia|]. rewrite st8_out, sto_out by lia. apply H, Hx.
Qed.

(** ** Invariant between the instructions: [c] bytes below the frame are in use *)
Record I (c : Z) (s : st) : Prop := mkI {
  i_sp : rg s RSP = B - fs - c;
  i_bp : rg s RBP = B;
  i_sv : forall r, In r [RBX; RSI; RDI; 12; 13; 14; 15] -> rg s r = rg s0 r;
  i_wf : wf s }.
Definition kept (m m' : Z -> Z) : Prop := forall x, fixed x -> m' x = m x.
Lemma kept_refl m : kept m m. Proof. intros x _. reflexivity. Qed.
Lemma kept_trans m1 m2 m3 : kept m1 m2 -> kept m2 m3 -> kept m1 m3.
Proof. intros H1 H2 x Hx. rewrite H2, H1 by exact Hx. reflexivity. Qed.
Lemma kept_st8 m a v : 0 <= a -> a + 8 <= W64 -> (forall x, a <= x < a + 8 -> ~ fixed x) -> kept m (st8 m a v).
Proof. intros H1 H2 H x Hx. apply st8_out; [exact H1|exact H2|]. intros C. exact (H x C Hx). Qed.
Lemma kept_ld8 m m' a : kept m m' -> (forall x, a <= x < a + 8 -> fixed x) -> 0 <= a -> a + 8 <= W64 -> ld8 m' a = ld8 m a.
Proof. intros K H H1 H2. apply ld8_ext; auto. Qed.

(** ** Calls *)
Section Call.
Variables (base : Z) (env : nat -> Z -> st -> st).
Hypothesis Henv : conforming pks rk s0 (the_vars rk B) (B - fs) env.

(** what is known about a call made in the state [s] with [c] bytes below the frame *)
Record called (c : Z) (s : st) (target : Z) (e : event) (s' : st) : Prop := mkCalled {
  cl_target : e_target e = target;
  cl_aligned : aligned (e_in e);
  cl_rsp : rg (e_in e) RSP = B - fs - c - 8;
  cl_agree : Agree (mm s) (mm (e_in e));
  cl_reg : forall j, (j < 4)%nat -> arg (e_in e) j = rg s (nth j [RCX; RDX; R8; R9] 0);
  cl_stk : forall j, (4 <= j)%nat -> 8 * Z.of_nat j <= 2 ^ 19 + 2 ^ 8 -> arg (e_in e) j = ld8 (mm s) (B - fs - c + 8 * Z.of_nat j);
  cl_freg : forall j, (j < 4)%nat -> farg (e_in e) j = xm s (Z.of_nat j);
  cl_fstk : forall j, (4 <= j)%nat -> 8 * Z.of_nat j <= 2 ^ 19 + 2 ^ 8 -> farg (e_in e) j = ld8 (mm s) (B - fs - c + 8 * Z.of_nat j);
  cl_I : I c s';
  cl_mem : mm s' = mm (e_out e);
  cl_rax : rg s' RAX = rax e;
  cl_xm : xm s' = xm (e_out e);
  cl_own : forall x, Own x -> B - fs <= x -> mm s' x = mm s x }.

Lemma run_called pre r s tr c : reg_ok r -> I c s -> 32 <= c -> c mod 16 = 8 -> fs + c + 8 <= Depth ->
  exists e s', T base env pre [ACall r] (s, tr) (s', tr ++ [e]) /\ called c s (rg s r) e s'.
Proof.
  intros Hr HI Hc Hm Hd. destruct HI as [Isp Ibp Isv Iwf].
  pose proof depth_ge as HD. assert (Hfr := fs_cases). pose proof facts as (Fa & Fm & _ & _).
  assert (HW : W64 = 2 ^ 64) by reflexivity.
  assert (Esp : w64 (rg s RSP - 8) = B - fs - c - 8) by (rewrite Isp; apply w64_small; lia).
  set (e := ev_of base env pre r s (length tr)). exists e. eexists. split; [apply T_call; exact Hr|].
  fold e. unfold ev_of, call_in, push in e. cbv zeta in e.
  set (p := w64 (base + off (pre ++ [ACall r]))) in e.
  set (s1 := set_rg (set_mm (set_pc s (off pre)) (st8 (mm (set_pc s (off pre))) (w64 (rg (set_pc s (off pre)) RSP - 8)) p)) RSP (w64 (rg (set_pc s (off pre)) RSP - 8))).
  assert (Es1 : s1 = set_rg (set_mm (set_pc s (off pre)) (st8 (mm s) (B - fs - c - 8) p)) RSP (B - fs - c - 8)).
  { unfold s1. cbn [set_pc rg mm]. rewrite Esp. reflexivity. }
  change s1 with (e_in e) in Es1.
  assert (Ersp : rg (e_in e) RSP = B - fs - c - 8) by (rewrite Es1; reflexivity).
  assert (Emm : mm (e_in e) = st8 (mm s) (B - fs - c - 8) p) by (rewrite Es1; reflexivity).
  assert (Erg : forall j, j <> RSP -> rg (e_in e) j = rg s j) by (intros j Hj; rewrite Es1; cbn [rg set_rg set_mm]; rewrite upd_diff by exact Hj; reflexivity).
  assert (Exm : xm (e_in e) = xm s) by (rewrite Es1; reflexivity).
  assert (Ewf : wf (e_in e)).
  { destruct Iwf as (W1 & W2 & W3). split; [|split].
    - intros j. destruct (Z.eq_dec j RSP) as [-> |Hj]; [rewrite Ersp; lia|rewrite Erg by exact Hj; apply W1].
    - intros j. rewrite Exm. apply W2.
    - rewrite Emm. apply st8_bytes. exact W3. }
  assert (Eout : e_out e = env (length tr) (rg s r) (e_in e)) by reflexivity.
  destruct (Henv (length tr) (rg s r) (e_in e) Ewf) as (Owf & Osv & Oown). rewrite <- Eout in Owf, Osv, Oown.
  assert (Epush : forall x, Own x -> B - fs <= x -> mm (e_in e) x = mm s x).
  { intros x _ Hx. rewrite Emm. apply st8_out; lia. }
  constructor.
  - reflexivity.
  - unfold aligned in *. rewrite Ersp. rewrite HB in Hal. destruct Hfr as [[F _]|F]; rewrite F; clear - Fm Hal Hm; Z.div_mod_to_equations; lia.
  - exact Ersp.
  - rewrite Emm. apply agree_own; [lia|lia|]. intros x Hx. apply own_below. lia.
  - intros j Hj. unfold arg. destruct (Nat.ltb_spec j 4); [|lia]. apply Erg.
    destruct j as [|[|[|[|j]]]]; [discriminate|discriminate|discriminate|discriminate|lia].
  - intros j Hj Hj2. unfold arg. destruct (Nat.ltb_spec j 4); [lia|]. rewrite Ersp, Emm.
    replace (B - fs - c - 8 + 8 + 8 * Z.of_nat j) with (B - fs - c + 8 * Z.of_nat j) by lia. apply ld8_st8_diff; lia.
  - intros j Hj. unfold farg. destruct (Nat.ltb_spec j 4); [|lia]. rewrite Exm. reflexivity.
  - intros j Hj Hj2. unfold farg. destruct (Nat.ltb_spec j 4); [lia|]. rewrite Ersp, Emm.
    replace (B - fs - c - 8 + 8 + 8 * Z.of_nat j) with (B - fs - c + 8 * Z.of_nat j) by lia. apply ld8_st8_diff; lia.
  - assert (Sv : forall j, In j nonvolatile -> rg (e_out e) j = rg s j).
    { intros j Hj. rewrite (Osv j Hj). apply Erg. unfold nonvolatile in Hj. cbn [In] in Hj. intros ->. unfold RSP, RBX, RBP, RSI, RDI in Hj. lia. }
    constructor.
    + cbn [rg set_rg]. rewrite upd_same, Isp, w64_small; lia.
    + cbn [rg set_rg]. rewrite upd_diff by discriminate. rewrite Sv; [exact Ibp|cbn; auto].
    + intros j Hj. cbn [rg set_rg]. rewrite upd_diff. 2:{ intros ->. cbn [In] in Hj. unfold RSP, RBX, RBP, RSI, RDI in Hj. lia. }
      rewrite Sv; [apply Isv; exact Hj|]. unfold nonvolatile. cbn [In] in *. tauto.
    + destruct Owf as (W1 & W2 & W3). split; [|split]; [|exact W2|exact W3]. intros j. cbn [rg set_rg]. unfold upd. destruct (j =? RSP); [apply w64_range|apply W1].
  - reflexivity.
  - cbn [rg set_rg]. rewrite upd_diff by discriminate. reflexivity.
  - reflexivity.
  - intros x Hx Hl. cbn [mm set_rg]. rewrite Oown by assumption. apply Epush; assumption.
Qed.
End Call.
End Frame.
