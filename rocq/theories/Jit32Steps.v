(** Running the instructions of the 32-bit generator one by one: what is known of a state are the
    eight registers, the x87 stack, the direction flag and the memory. *)
From Coq Require Import List ZArith Bool Lia.
From Verif Require Import TrampModel ProtoModel GenModel Asm32Model Asm32Spec Asm32Proofs Mach32 Mach32Proofs Jit32Spec.
Import ListNotations.
Local Open Scope Z_scope.
Notation length := List.length.




Record regs := R8 { ra : Z; rc : Z; rd_ : Z; rb : Z; rsp : Z; rbp : Z; rsi : Z; rdi : Z }.
Definition getr (R : regs) (r : Z) : Z :=
  match r with 0 => ra R | 1 => rc R | 2 => rd_ R | 3 => rb R | 4 => rsp R | 5 => rbp R | 6 => rsi R | _ => rdi R end.
Definition setr (R : regs) (r v : Z) : regs :=
  let '(R8 a c d b sp bp si di) := R in
  match r with
  | 0 => R8 v c d b sp bp si di | 1 => R8 a v d b sp bp si di | 2 => R8 a c v b sp bp si di | 3 => R8 a c d v sp bp si di
  | 4 => R8 a c d b v bp si di | 5 => R8 a c d b sp v si di | 6 => R8 a c d b sp bp v di | _ => R8 a c d b sp bp si v
  end.
Lemma eight r : 0 <= r < 8 -> r = 0 \/ r = 1 \/ r = 2 \/ r = 3 \/ r = 4 \/ r = 5 \/ r = 6 \/ r = 7.
Proof. lia. Qed.
Lemma get_set R r v x : 0 <= r < 8 -> 0 <= x < 8 -> getr (setr R r v) x = if x =? r then v else getr R x.
Proof.
  intros Hr Hx. destruct R. destruct (eight r Hr) as [->|[->|[->|[->|[->|[->|[->| -> ] ] ] ] ] ] ];
  destruct (eight x Hx) as [->|[->|[->|[->|[->|[->|[->| -> ] ] ] ] ] ] ]; reflexivity.
Qed.
Definition is (s : st) (R : regs) (f : list Z) (d : bool) (m : Z -> Z) : Prop :=
  (forall r, 0 <= r < 8 -> rg s r = getr R r) /\ fp s = f /\ df s = d /\ mm s = m /\ wf s.

Definition okr (v : Z) : Prop := 0 <= v < W32.
Lemma is_get s R f d m r : is s R f d m -> 0 <= r < 8 -> okr (getr R r).
Proof. intros (H & _ & _ & _ & (K & _)) Hr. rewrite <- H by exact Hr. apply K. Qed.
Lemma is_ok s R f d m : is s R f d m -> okr (ra R) /\ okr (rc R) /\ okr (rd_ R) /\ okr (rb R) /\ okr (rsp R) /\ okr (rbp R) /\ okr (rsi R) /\ okr (rdi R).
Proof.
  intros H. split; [exact (is_get s R f d m 0 H ltac:(lia))|]. split; [exact (is_get s R f d m 1 H ltac:(lia))|].
  split; [exact (is_get s R f d m 2 H ltac:(lia))|]. split; [exact (is_get s R f d m 3 H ltac:(lia))|].
  split; [exact (is_get s R f d m 4 H ltac:(lia))|]. split; [exact (is_get s R f d m 5 H ltac:(lia))|].
  split; [exact (is_get s R f d m 6 H ltac:(lia))|exact (is_get s R f d m 7 H ltac:(lia))].
Qed.
Lemma is_bytes s R f d m : is s R f d m -> bytes_ok m.
Proof. intros (_ & _ & _ & <- & (_ & K)). exact K. Qed.
Lemma is_self s : wf s -> is s (R8 (rg s 0) (rg s 1) (rg s 2) (rg s 3) (rg s 4) (rg s 5) (rg s 6) (rg s 7)) (fp s) (df s) (mm s).
Proof.
  intros H. split; [|auto]. intros r Hr. destruct (eight r Hr) as [->|[->|[->|[->|[->|[->|[->| -> ] ] ] ] ] ] ]; reflexivity.
Qed.
Lemma is_set_rg s R f d m r v : is s R f d m -> 0 <= r < 8 -> okr v -> is (set_rg s r v) (setr R r v) f d m.
Proof.
  intros (H1 & H2 & H3 & H4 & (K1 & K2)) Hr Hv. split.
  - intros x Hx. cbn [rg set_rg]. unfold upd. rewrite get_set by assumption. rewrite <- H1 by exact Hx. reflexivity.
  - split; [exact H2|]. split; [exact H3|]. split; [exact H4|]. split; [|exact K2].
    intros x. cbn [rg set_rg]. unfold upd. destruct (x =? r); [exact Hv|apply K1].
Qed.
Lemma is_set_mm s R f d m m' : is s R f d m -> bytes_ok m' -> is (set_mm s m') R f d m'.
Proof. intros (H1 & H2 & H3 & H4 & (K1 & K2)) Hm. split; [exact H1|]. split; [exact H2|]. split; [exact H3|]. split; [reflexivity|]. split; [exact K1|exact Hm]. Qed.
Lemma is_set_fp s R f d m f' : is s R f d m -> is (set_fp s f') R f' d m.
Proof. intros (H1 & H2 & H3 & H4 & K). split; [exact H1|]. split; [reflexivity|]. split; [exact H3|]. split; [exact H4|exact K]. Qed.
Lemma is_set_fl s R f d m a b c : is s R f d m -> is (set_fl s a b c) R f d m.
Proof. exact (fun H => H). Qed.
Lemma is_set_pc s R f d m p : is s R f d m -> is (set_pc s p) R f d m.
Proof. exact (fun H => H). Qed.
Lemma w32_ok x : okr (w32 x). Proof. exact (w32_range x). Qed.

(** what an operand stands for *)
Lemma ea_at s R f d m b x : is s R f d m -> 0 <= b < 8 -> ea s (at_ b x) = Some (w32 (getr R b + x)).
Proof. intros H Hb. cbn [at_ ea]. destruct H as (H & _). rewrite H by exact Hb. rewrite Z.add_0_r. reflexivity. Qed.
Lemma rd_at s R f d m b x : is s R f d m -> 0 <= b < 8 -> rd s (at_ b x) = ld4 m (w32 (getr R b + x)).
Proof. intros H Hb. unfold rd. cbn [at_]. fold (at_ b x). rewrite (ea_at s R f d m b x H Hb). destruct H as (_ & _ & _ & -> & _). reflexivity. Qed.
Lemma wr_at s R f d m b x v : is s R f d m -> 0 <= b < 8 -> wr s (at_ b x) v = set_mm s (st4 m (w32 (getr R b + x)) v).
Proof. intros H Hb. unfold wr. cbn [at_]. fold (at_ b x). rewrite (ea_at s R f d m b x H Hb). destruct H as (_ & _ & _ & -> & _). reflexivity. Qed.
Lemma rd_reg s R f d m r : is s R f d m -> 0 <= r < 8 -> rd s (OReg r) = getr R r.
Proof. intros (H & _) Hr. exact (H r Hr). Qed.

Section X.
Variables (u : fpu) (base : Z) (env : nat -> Z -> st -> st) (P : list asm) (O : Type).
Notation W := (W u base env P O).
Notation sys := (sys O).
Variables (l : list asm) (tr : list event) (F : sys).
Variables (s : st) (R : regs) (f : list Z) (d : bool) (m : Z -> Z).
Hypothesis H : is s R f d m.

Ltac exe s' := apply (W_exec u base env P O _ _ _ s' _ _); [| first [reflexivity | match goal with E : meaning _ = _ |- _ => rewrite E; reflexivity end] | |].
Ltac regok := repeat match goal with |- _ /\ _ => split end; try assumption; try (unfold reg_ok, base_ok, rm_ok, int32_ok, int8_ok in *; lia).

Lemma X_mov_rr r b : 0 <= r < 8 -> 0 <= b < 8 -> (forall s', is s' (setr R r (getr R b)) f d m -> W l s' tr F) -> W (AMov_Reg_Rm r b 3 :: l) s tr F.
Proof.
  intros Hr Hb K. exe (set_rg s r (getr R b)); [cbn [asm_ok]; regok| |].
  - cbn [meaning rm Z.eqb Pos.eqb exec1 wr]. rewrite (rd_reg s R f d m b H Hb). reflexivity.
  - apply K. apply is_set_rg; [exact H|exact Hr|]. exact (is_get s R f d m b H Hb).
Qed.
Lemma X_mov_rm r b : 0 <= r < 8 -> 0 <= b < 8 -> b <> 4 -> b <> 5 -> (forall s', is s' (setr R r (ld4 m (getr R b))) f d m -> W l s' tr F) -> W (AMov_Reg_Rm r b 0 :: l) s tr F.
Proof.
  intros Hr Hb N4 N5 K. exe (set_rg s r (ld4 m (getr R b))); [cbn [asm_ok]; regok| |].
  - cbn [meaning rm Z.eqb Pos.eqb exec1 wr]. change (OMem (Some b) None 0) with (at_ b 0). rewrite (rd_at s R f d m b 0 H Hb).
    rewrite Z.add_0_r, w32_small by exact (is_get s R f d m b H Hb). reflexivity.
  - apply K. apply is_set_rg; [exact H|exact Hr|]. apply ld4_range. exact (is_bytes _ _ _ _ _ H).
Qed.
Lemma X_load r b x y : 0 <= r < 8 -> 0 <= b < 8 -> b <> 4 -> -128 <= x < 2 ^ 31 -> (x = 0 -> b <> 5) -> w32 (getr R b + x) = y ->
  (forall s', is s' (setr R r (ld4 m y)) f d m -> W l s' tr F) -> W (AMov_Reg_Rm_DispAuto r b x :: l) s tr F.
Proof.
  intros Hr Hb N4 Hx Hx0 Hy K. exe (set_rg s r (ld4 m y)); [cbn [asm_ok]; regok| |].
  - cbn [meaning exec1 wr]. rewrite (rd_at s R f d m b x H Hb), Hy. reflexivity.
  - apply K. apply is_set_rg; [exact H|exact Hr|]. apply ld4_range. exact (is_bytes _ _ _ _ _ H).
Qed.
Lemma X_load8 r b x y : 0 <= r < 8 -> 0 <= b < 8 -> b <> 4 -> -128 <= x <= 127 -> w32 (getr R b + x) = y ->
  (forall s', is s' (setr R r (ld4 m y)) f d m -> W l s' tr F) -> W (AMov_Reg_Rm_Disp8 r b x :: l) s tr F.
Proof.
  intros Hr Hb N4 Hx Hy K. exe (set_rg s r (ld4 m y)); [cbn [asm_ok]; regok| |].
  - cbn [meaning exec1 wr]. rewrite (rd_at s R f d m b x H Hb), Hy. reflexivity.
  - apply K. apply is_set_rg; [exact H|exact Hr|]. apply ld4_range. exact (is_bytes _ _ _ _ _ H).
Qed.
Lemma X_movzx8 r b x y : 0 <= r < 8 -> 0 <= b < 8 -> b <> 4 -> int32_ok x -> w32 (getr R b + x) = y ->
  (forall s', is s' (setr R r (ld m y 1)) f d m -> W l s' tr F) -> W (AMovzx_Reg32_Rm8_DispAuto r b x :: l) s tr F.
Proof.
  intros Hr Hb N4 Hx Hy K. exe (set_rg s r (ld m y 1)); [cbn [asm_ok]; regok| |].
  - cbn [meaning exec1 Z.eqb Pos.eqb]. f_equal. f_equal. unfold rd8. cbn [at_]. fold (at_ b x). rewrite (ea_at s R f d m b x H Hb), Hy.
    destruct H as (_ & _ & _ & -> & _). reflexivity.
  - apply K. apply is_set_rg; [exact H|exact Hr|]. pose proof (ld_range m 1 (is_bytes _ _ _ _ _ H) y). change (256 ^ Z.of_nat 1) with 256 in *. unfold okr, W32. lia.
Qed.
Lemma X_movzx8d r b x y : 0 <= r < 8 -> 0 <= b < 8 -> b <> 4 -> -128 <= x <= 127 -> w32 (getr R b + x) = y ->
  (forall s', is s' (setr R r (ld m y 1)) f d m -> W l s' tr F) -> W (AMovzx_Reg32_Rm8_Disp8 r b x :: l) s tr F.
Proof.
  intros Hr Hb N4 Hx Hy K. exe (set_rg s r (ld m y 1)); [cbn [asm_ok]; regok| |].
  - cbn [meaning exec1 Z.eqb Pos.eqb]. f_equal. f_equal. unfold rd8. cbn [at_]. fold (at_ b x). rewrite (ea_at s R f d m b x H Hb), Hy.
    destruct H as (_ & _ & _ & -> & _). reflexivity.
  - apply K. apply is_set_rg; [exact H|exact Hr|]. pose proof (ld_range m 1 (is_bytes _ _ _ _ _ H) y). change (256 ^ Z.of_nat 1) with 256 in *. unfold okr, W32. lia.
Qed.
Lemma X_movzx16 r b x y : 0 <= r < 8 -> 0 <= b < 8 -> b <> 4 -> int32_ok x -> w32 (getr R b + x) = y ->
  (forall s' v, v mod 2 ^ 16 = ld m y 2 -> is s' (setr R r v) f d m -> W l s' tr F) -> W (AMovzx16Prefixed r b x :: l) s tr F.
Proof.
  intros Hr Hb N4 Hx Hy K. pose proof (is_get s R f d m r H Hr) as Ok. pose proof (ld_range m 2 (is_bytes _ _ _ _ _ H) y) as Rg.
  change (256 ^ Z.of_nat 2) with (2 ^ 16) in Rg. pose proof (Z_div_mod_eq_full (getr R r) (2 ^ 16)) as Dm.
  assert (Dv : 0 <= getr R r / 2 ^ 16 < 2 ^ 16) by (unfold okr, W32 in Ok; split; [apply Z.div_pos; lia|apply Z.div_lt_upper_bound; lia]).
  exe (set_rg s r (getr R r - getr R r mod 2 ^ 16 + ld m y 2)); [cbn [asm_ok]; regok| |].
  - cbn [meaning exec1]. rewrite (ea_at s R f d m b x H Hb), Hy. destruct H as (Hg & _ & _ & -> & _). rewrite (Hg r Hr). reflexivity.
  - apply (K _ (getr R r - getr R r mod 2 ^ 16 + ld m y 2)).
    + replace (getr R r - getr R r mod 2 ^ 16 + ld m y 2) with (ld m y 2 + getr R r / 2 ^ 16 * 2 ^ 16) by lia. rewrite Z.mod_add by lia. apply Z.mod_small. exact Rg.
    + apply is_set_rg; [exact H|exact Hr|]. unfold okr, W32 in *. lia.
Qed.
Lemma X_store b r x y : 0 <= b < 8 -> b <> 4 -> 0 <= r < 8 -> int32_ok x -> w32 (getr R b + x) = y ->
  (forall s', is s' R f d (st4 m y (getr R r)) -> W l s' tr F) -> W (AMov_Rm_Reg_DispAuto b r x :: l) s tr F.
Proof.
  intros Hb N4 Hr Hx Hy K. exe (set_mm s (st4 m y (getr R r))); [cbn [asm_ok]; regok| |].
  - cbn [meaning exec1]. rewrite (rd_reg s R f d m r H Hr), (wr_at s R f d m b x _ H Hb), Hy. reflexivity.
  - apply K. eapply is_set_mm; [exact H|]. apply sto_bytes. exact (is_bytes _ _ _ _ _ H).
Qed.
Lemma X_store8 b r x y : 0 <= b < 8 -> b <> 4 -> 0 <= r < 8 -> -128 <= x <= 127 -> w32 (getr R b + x) = y ->
  (forall s', is s' R f d (st4 m y (getr R r)) -> W l s' tr F) -> W (AMov_Rm_Reg_Disp8 b r x :: l) s tr F.
Proof.
  intros Hb N4 Hr Hx Hy K. exe (set_mm s (st4 m y (getr R r))); [cbn [asm_ok]; regok| |].
  - cbn [meaning exec1]. rewrite (rd_reg s R f d m r H Hr), (wr_at s R f d m b x _ H Hb), Hy. reflexivity.
  - apply K. eapply is_set_mm; [exact H|]. apply sto_bytes. exact (is_bytes _ _ _ _ _ H).
Qed.
Lemma X_store0 b r : 0 <= b < 8 -> b <> 4 -> b <> 5 -> 0 <= r < 8 ->
  (forall s', is s' R f d (st4 m (getr R b) (getr R r)) -> W l s' tr F) -> W (AMov_Rm_Reg b r 0 :: l) s tr F.
Proof.
  intros Hb N4 N5 Hr K. exe (set_mm s (st4 m (getr R b) (getr R r))); [cbn [asm_ok]; regok| |].
  - cbn [meaning exec1 rm Z.eqb Pos.eqb]. change (OMem (Some b) None 0) with (at_ b 0). rewrite (rd_reg s R f d m r H Hr), (wr_at s R f d m b 0 _ H Hb).
    rewrite Z.add_0_r, w32_small by exact (is_get s R f d m b H Hb). reflexivity.
  - apply K. eapply is_set_mm; [exact H|]. apply sto_bytes. exact (is_bytes _ _ _ _ _ H).
Qed.
Lemma X_storei b v x y : 0 <= b < 8 -> b <> 4 -> int32_ok v -> -128 <= x <= 127 -> w32 (getr R b + x) = y ->
  (forall s', is s' R f d (st4 m y (w32 v)) -> W l s' tr F) -> W (AMov_Rm_Imm32_Disp8 b v x :: l) s tr F.
Proof.
  intros Hb N4 Hv Hx Hy K. exe (set_mm s (st4 m y (w32 v))); [cbn [asm_ok]; regok| |].
  - cbn [meaning exec1]. rewrite (wr_at s R f d m b x _ H Hb), Hy. reflexivity.
  - apply K. eapply is_set_mm; [exact H|]. apply sto_bytes. exact (is_bytes _ _ _ _ _ H).
Qed.
Lemma X_storeb b r x y : 0 <= b < 8 -> b <> 4 -> 0 <= r < 4 -> int32_ok x -> w32 (getr R b + x) = y ->
  (forall s', is s' R f d (sto m y 1 (getr R r mod 256)) -> W l s' tr F) -> W (AMov_Rm8_Reg8_DispAuto b r x :: l) s tr F.
Proof.
  intros Hb N4 Hr Hx Hy K. exe (set_mm s (sto m y 1 (getr R r mod 256))); [cbn [asm_ok]; regok| |].
  - cbn [meaning exec1]. unfold wr8. cbn [at_]. fold (at_ b x). rewrite (ea_at s R f d m b x H Hb), Hy. cbn [rd8].
    destruct (Z.ltb_spec r 4); [|lia]. destruct H as (Hg & _ & _ & Hm & _). rewrite Hm, (Hg r) by lia. reflexivity.
  - apply K. eapply is_set_mm; [exact H|]. apply sto_bytes. exact (is_bytes _ _ _ _ _ H).
Qed.
Lemma X_movi r v : 0 <= r < 8 -> int32_ok v -> (forall s', is s' (setr R r (w32 v)) f d m -> W l s' tr F) -> W (AMov_Reg_Imm32 r v :: l) s tr F.
Proof.
  intros Hr Hv K. exe (set_rg s r (w32 v)); [cbn [asm_ok]; regok|reflexivity|]. apply K. apply is_set_rg; [exact H|exact Hr|apply w32_ok].
Qed.
Lemma X_movi2 r v : 0 <= r < 8 -> int32_ok v -> (forall s', is s' (setr R r (w32 v)) f d m -> W l s' tr F) -> W (AMov_Rm_Imm32 r v 3 :: l) s tr F.
Proof.
  intros Hr Hv K. exe (set_rg s r (w32 v)); [cbn [asm_ok]; regok|reflexivity|]. apply K. apply is_set_rg; [exact H|exact Hr|apply w32_ok].
Qed.
Lemma X_lea r b x y : 0 <= r < 8 -> 0 <= b < 8 -> b <> 4 -> int32_ok x -> w32 (getr R b + x) = y ->
  (forall s', is s' (setr R r y) f d m -> W l s' tr F) -> W (ALea_DispRegImmAuto r b x :: l) s tr F.
Proof.
  intros Hr Hb N4 Hx Hy K. exe (set_rg s r y); [cbn [asm_ok]; regok| |].
  - cbn [meaning exec1]. rewrite (ea_at s R f d m b x H Hb), Hy. reflexivity.
  - apply K. apply is_set_rg; [exact H|exact Hr|]. rewrite <- Hy. apply w32_ok.
Qed.
Lemma X_lea8 r b x y : 0 <= r < 8 -> 0 <= b < 8 -> b <> 4 -> -128 <= x <= 127 -> w32 (getr R b + x) = y ->
  (forall s', is s' (setr R r y) f d m -> W l s' tr F) -> W (ALea_DispRegImm8 r b x :: l) s tr F.
Proof.
  intros Hr Hb N4 Hx Hy K. exe (set_rg s r y); [cbn [asm_ok]; regok| |].
  - cbn [meaning exec1]. rewrite (ea_at s R f d m b x H Hb), Hy. reflexivity.
  - apply K. apply is_set_rg; [exact H|exact Hr|]. rewrite <- Hy. apply w32_ok.
Qed.
Lemma X_lea_esp r x y : 0 <= r < 8 -> -128 <= x <= 127 -> w32 (rsp R + x) = y ->
  (forall s', is s' (setr R r y) f d m -> W l s' tr F) -> W (ALea_Reg_DispRegMultImm8 r 4 4 0 x :: l) s tr F.
Proof.
  intros Hr Hx Hy K. exe (set_rg s r y); [cbn [asm_ok]; unfold scale_ok; regok| |].
  - cbn [meaning exec1]. unfold atx. cbn [Z.eqb Pos.eqb]. change (OMem (Some 4) None x) with (at_ 4 x). rewrite (ea_at s R f d m 4 x H) by lia.
    change (getr R 4) with (rsp R). rewrite Hy. reflexivity.
  - apply K. apply is_set_rg; [exact H|exact Hr|]. rewrite <- Hy. apply w32_ok.
Qed.
Lemma X_push r y : 0 <= r < 8 -> w32 (rsp R - 4) = y ->
  (forall s', is s' (setr R 4 y) f d (st4 m y (getr R r)) -> W l s' tr F) -> W (APush_Reg r :: l) s tr F.
Proof.
  intros Hr Hy K. assert (Ey : w32 (rg s ESP - 4) = y) by (destruct H as (Hg & _); unfold ESP; rewrite (Hg 4) by lia; exact Hy).
  exe (set_rg (set_mm s (st4 m y (getr R r))) 4 y); [cbn [asm_ok]; regok| |].
  - cbn [meaning exec1]. unfold push. rewrite (rd_reg s R f d m r H Hr), Ey. destruct H as (_ & _ & _ & -> & _). reflexivity.
  - apply K. apply is_set_rg; [|lia|rewrite <- Hy; apply w32_ok]. eapply is_set_mm; [exact H|]. apply sto_bytes. exact (is_bytes _ _ _ _ _ H).
Qed.
Lemma X_push_rm b x y a : 0 <= b < 8 -> b <> 4 -> int32_ok x -> w32 (rsp R - 4) = y -> w32 (getr R b + x) = a ->
  (forall s', is s' (setr R 4 y) f d (st4 m y (ld4 m a)) -> W l s' tr F) -> W (APush_Rm_DispAuto b x :: l) s tr F.
Proof.
  intros Hb N4 Hx Hy Ha K. assert (Ey : w32 (rg s ESP - 4) = y) by (destruct H as (Hg & _); unfold ESP; rewrite (Hg 4) by lia; exact Hy).
  exe (set_rg (set_mm s (st4 m y (ld4 m a))) 4 y); [cbn [asm_ok]; regok| |].
  - cbn [meaning exec1]. unfold push. rewrite (rd_at s R f d m b x H Hb), Ey, Ha. destruct H as (_ & _ & _ & -> & _). reflexivity.
  - apply K. apply is_set_rg; [|lia|rewrite <- Hy; apply w32_ok]. eapply is_set_mm; [exact H|]. apply sto_bytes. exact (is_bytes _ _ _ _ _ H).
Qed.
Lemma X_push_imm v y : int32_ok v -> w32 (rsp R - 4) = y ->
  (forall s', is s' (setr R 4 y) f d (st4 m y (w32 v)) -> W l s' tr F) -> W (APush_Imm32 v :: l) s tr F.
Proof.
  intros Hv Hy K. assert (Ey : w32 (rg s ESP - 4) = y) by (destruct H as (Hg & _); unfold ESP; rewrite (Hg 4) by lia; exact Hy).
  exe (set_rg (set_mm s (st4 m y (w32 v))) 4 y); [cbn [asm_ok]; regok| |].
  - cbn [meaning exec1]. unfold push. rewrite Ey. destruct H as (_ & _ & _ & -> & _). reflexivity.
  - apply K. apply is_set_rg; [|lia|rewrite <- Hy; apply w32_ok]. eapply is_set_mm; [exact H|]. apply sto_bytes. exact (is_bytes _ _ _ _ _ H).
Qed.
Lemma X_push_imm8 v y : int8_ok v -> w32 (rsp R - 4) = y ->
  (forall s', is s' (setr R 4 y) f d (st4 m y (w32 v)) -> W l s' tr F) -> W (APush_Imm8 v :: l) s tr F.
Proof.
  intros Hv Hy K. assert (Ey : w32 (rg s ESP - 4) = y) by (destruct H as (Hg & _); unfold ESP; rewrite (Hg 4) by lia; exact Hy).
  exe (set_rg (set_mm s (st4 m y (w32 v))) 4 y); [cbn [asm_ok]; regok| |].
  - cbn [meaning exec1]. unfold push. rewrite Ey. destruct H as (_ & _ & _ & -> & _). reflexivity.
  - apply K. apply is_set_rg; [|lia|rewrite <- Hy; apply w32_ok]. eapply is_set_mm; [exact H|]. apply sto_bytes. exact (is_bytes _ _ _ _ _ H).
Qed.
Lemma X_pop r y : 0 <= r < 8 -> w32 (rsp R + 4) = y ->
  (forall s', is s' (setr (setr R 4 y) r (ld4 m (rsp R))) f d m -> W l s' tr F) -> W (APop_Reg r :: l) s tr F.
Proof.
  intros Hr Hy K. assert (Es : rg s ESP = rsp R) by (destruct H as (Hg & _); unfold ESP; rewrite (Hg 4) by lia; reflexivity).
  exe (set_rg (set_rg s 4 y) r (ld4 m (rsp R))); [cbn [asm_ok]; regok| |].
  - cbn [meaning exec1]. rewrite Es, Hy. destruct H as (_ & _ & _ & -> & _). reflexivity.
  - apply K. apply is_set_rg; [|exact Hr|apply ld4_range; exact (is_bytes _ _ _ _ _ H)]. apply is_set_rg; [exact H|lia|rewrite <- Hy; apply w32_ok].
Qed.
(** arithmetic whose flags are not used *)
Lemma X_alui a op r v y : meaning a = IAluImm op (OReg r) v -> asm_ok a -> 0 <= r < 8 ->
  match op with OAdd => w32 (getr R r + w32 v) = y | OSub => w32 (getr R r - w32 v) = y | OAnd => Z.land (getr R r) (w32 v) = y | _ => False end ->
  okr y -> (forall s', is s' (setr R r y) f d m -> W l s' tr F) -> W (a :: l) s tr F.
Proof.
  intros Hm Ha Hr Hy Ok K.
  assert (E : exists s', exec1 u (meaning a) s = Some s' /\ is s' (setr R r y) f d m).
  { rewrite Hm. cbn [exec1]. rewrite (rd_reg s R f d m r H Hr). destruct op; try contradiction; cbn [alu wr]; rewrite Hy;
    (eexists; split; [reflexivity|]; apply is_set_rg; [|exact Hr|exact Ok]; unfold flags; apply is_set_fl; exact H). }
  destruct E as (s' & E & I'). exe s'; [exact Ha|exact E|exact (K s' I')].
Qed.
Lemma X_add_esp a v y : meaning a = IAluImm OAdd (OReg 4) v -> asm_ok a -> w32 (rsp R + v) = y -> (forall s', is s' (setr R 4 y) f d m -> W l s' tr F) -> W (a :: l) s tr F.
Proof.
  intros Hm Ha Hy K. apply (X_alui a OAdd 4 v y Hm Ha ltac:(lia)); [|rewrite <- Hy; apply w32_ok|exact K].
  cbv beta iota. change (getr R 4) with (rsp R). rewrite w32_idem_r. exact Hy.
Qed.
Lemma X_sub_esp a v y : meaning a = IAluImm OSub (OReg 4) v -> asm_ok a -> w32 (rsp R - v) = y -> (forall s', is s' (setr R 4 y) f d m -> W l s' tr F) -> W (a :: l) s tr F.
Proof.
  intros Hm Ha Hy K. apply (X_alui a OSub 4 v y Hm Ha ltac:(lia)); [|rewrite <- Hy; apply w32_ok|exact K].
  cbv beta iota. change (getr R 4) with (rsp R). rewrite <- Hy. unfold w32. rewrite Zminus_mod_idemp_r. reflexivity.
Qed.
Lemma X_zero r : 0 <= r < 8 -> (forall s', is s' (setr R r 0) f d m -> W l s' tr F) -> W (AXor_Reg_Rm r r 3 :: l) s tr F.
Proof.
  intros Hr K. exe (set_rg (flags s 0 false) r 0); [cbn [asm_ok]; regok| |].
  - cbn [meaning exec1 rm Z.eqb Pos.eqb alu wr]. rewrite Z.lxor_nilpotent. reflexivity.
  - apply K. apply is_set_rg; [|exact Hr|unfold okr, W32; lia]. unfold flags. apply is_set_fl. exact H.
Qed.
Lemma X_add_rr r b : 0 <= r < 8 -> 0 <= b < 8 -> (forall s', is s' (setr R r (w32 (getr R r + getr R b))) f d m -> W l s' tr F) -> W (AAdd_Reg_Rm r b 3 :: l) s tr F.
Proof.
  intros Hr Hb K. set (v := w32 (getr R r + getr R b)).
  assert (E : exists s', exec1 u (meaning (AAdd_Reg_Rm r b 3)) s = Some s' /\ is s' (setr R r v) f d m).
  { cbn [meaning exec1 rm Z.eqb Pos.eqb]. rewrite (rd_reg s R f d m r H Hr), (rd_reg s R f d m b H Hb). cbn [alu wr]. fold v.
    eexists; split; [reflexivity|]; apply is_set_rg; [|exact Hr|apply w32_ok]; unfold flags; apply is_set_fl; exact H. }
  destruct E as (s' & E & I'). exe s'; [cbn [asm_ok]; regok|exact E|exact (K s' I')].
Qed.
Lemma X_lea_mult r i sc v y : 0 <= r < 8 -> 0 <= i < 8 -> i <> 4 -> 0 <= sc < 4 -> int32_ok v -> w32 (getr R i * 2 ^ sc + v) = y ->
  (forall s', is s' (setr R r y) f d m -> W l s' tr F) -> W (ALea_Reg_RegMultImm32 r i sc v :: l) s tr F.
Proof.
  intros Hr Hi N4 Hsc Hv Hy K. exe (set_rg s r y); [cbn [asm_ok]; unfold scale_ok, noidx_ok; regok| |].
  - cbn [meaning exec1 ea]. destruct H as (Hg & _). rewrite (Hg i Hi). rewrite Z.add_0_l, Hy. reflexivity.
  - apply K. apply is_set_rg; [exact H|exact Hr|]. rewrite <- Hy. apply w32_ok.
Qed.
Lemma X_cld : (forall s', is s' R f false m -> W l s' tr F) -> W (ACld :: l) s tr F.
Proof. intros K. exe (set_df s false); [exact I|reflexivity|]. apply K. destruct H as (H1 & H2 & _ & H4 & H5). split; [exact H1|]. split; [exact H2|]. split; [reflexivity|]. split; [exact H4|exact H5]. Qed.
Lemma rep_exec w : d = false -> exists s', rep_movs w s = Some s' /\
  is s' (setr (setr (setr R 1 0) 7 (w32 (rdi R + rc R * Z.of_nat w))) 6 (w32 (rsi R + rc R * Z.of_nat w))) f d (movs w (Z.to_nat (rc R)) m (rdi R) (rsi R)).
Proof.
  intros Hd. unfold rep_movs.
  assert (E : df s = d) by apply H. rewrite E, Hd.
  assert (Ec : rg s ECX = rc R) by (destruct H as (Hg & _); exact (Hg 1 ltac:(lia))).
  assert (Ei : rg s ESI = rsi R) by (destruct H as (Hg & _); exact (Hg 6 ltac:(lia))).
  assert (Ed : rg s EDI = rdi R) by (destruct H as (Hg & _); exact (Hg 7 ltac:(lia))).
  assert (Em : mm s = m) by apply H. rewrite Ec, Ei, Ed, Em. eexists. split; [reflexivity|].
  apply is_set_rg; [|unfold ESI; lia|apply w32_ok]. apply is_set_rg; [|unfold EDI; lia|apply w32_ok]. apply is_set_rg; [|unfold ECX; lia|unfold okr, W32; lia].
  rewrite <- Hd. eapply is_set_mm; [exact H|]. apply movs_bytes. exact (is_bytes _ _ _ _ _ H).
Qed.
Lemma X_movsd a b : d = false -> w32 (rdi R + rc R * 4) = a -> w32 (rsi R + rc R * 4) = b ->
  (forall s', is s' (setr (setr (setr R 1 0) 7 a) 6 b) f d (movs 4 (Z.to_nat (rc R)) m (rdi R) (rsi R)) -> W l s' tr F) -> W (ARepMovsd :: l) s tr F.
Proof.
  intros Hd <- <- K. destruct (rep_exec 4 Hd) as (s' & E & I'). exe s'; [exact I|exact E|exact (K s' I')].
Qed.
Lemma X_movsb a b : d = false -> w32 (rdi R + rc R * 1) = a -> w32 (rsi R + rc R * 1) = b ->
  (forall s', is s' (setr (setr (setr R 1 0) 7 a) 6 b) f d (movs 1 (Z.to_nat (rc R)) m (rdi R) (rsi R)) -> W l s' tr F) -> W (ARepMovsb :: l) s tr F.
Proof.
  intros Hd <- <- K. destruct (rep_exec 1 Hd) as (s' & E & I'). exe s'; [exact I|exact E|exact (K s' I')].
Qed.
Lemma X_fld n a b x y : meaning a = IFld (Z.of_nat n) (at_ b x) -> asm_ok a -> 0 <= b < 8 -> f = [] -> w32 (getr R b + x) = y ->
  (forall s', is s' R [fload u n (ld m y n)] d m -> W l s' tr F) -> W (a :: l) s tr F.
Proof.
  intros Hm Ha Hb Hf Hy K. exe (set_fp s [fload u n (ld m y n)]); [exact Ha| |apply K; eapply is_set_fp; exact H].
  rewrite Hm. cbn [exec1]. rewrite (ea_at s R f d m b x H Hb), Hy. destruct H as (_ & Hfp & _ & -> & _). rewrite Hfp, Hf. rewrite Nat2Z.id. reflexivity.
Qed.
Lemma X_fstp n a b x y v : meaning a = IFstp (Z.of_nat n) (at_ b x) -> asm_ok a -> 0 <= b < 8 -> f = [v] -> w32 (getr R b + x) = y ->
  (forall s', is s' R [] d (sto m y n (fstore u n v)) -> W l s' tr F) -> W (a :: l) s tr F.
Proof.
  intros Hm Ha Hb Hf Hy K. exe (set_mm (set_fp s []) (sto m y n (fstore u n v))); [exact Ha| |].
  - rewrite Hm. cbn [exec1]. rewrite (ea_at s R f d m b x H Hb), Hy. destruct H as (_ & Hfp & _ & -> & _). rewrite Hfp, Hf. rewrite Nat2Z.id. reflexivity.
  - apply K. eapply is_set_mm; [eapply is_set_fp; exact H|]. apply sto_bytes. exact (is_bytes _ _ _ _ _ H).
Qed.
(** comparisons and jumps over [body] *)
Lemma X_test_jz j r dd body b : meaning j = IJcc 4 dd -> asm_ok j -> dd = off body -> 0 <= r < 8 -> (getr R r =? 0) = b ->
  (forall s', is s' R f d m -> if b then W l s' tr F else W (body ++ l) s' tr F) -> W (ATest_Rm_Reg r r 3 :: j :: body ++ l) s tr F.
Proof.
  intros Hm Hj Hd Hr Hb K. exe (flags s (getr R r) false); [cbn [asm_ok]; regok| |].
  - cbn [meaning exec1 rm Z.eqb Pos.eqb]. rewrite (rd_reg s R f d m r H Hr), Z.land_diag. reflexivity.
  - apply (W_jcc u base env P O j 4 dd body l _ tr F b Hm Hj Hd).
    + unfold holds. cbn [Z.eqb Pos.eqb]. unfold flags. cbn [zf set_fl]. rewrite Hb. reflexivity.
    + assert (I' : is (flags s (getr R r) false) R f d m) by (unfold flags; apply is_set_fl; exact H).
      specialize (K _ I'). destruct b; exact K.
Qed.
Lemma X_test8_jz j r dd body b : meaning j = IJcc 4 dd -> asm_ok j -> dd = off body -> 0 <= r < 4 -> (getr R r mod 256 =? 0) = b ->
  (forall s', is s' R f d m -> if b then W l s' tr F else W (body ++ l) s' tr F) -> W (ATest_Rm_Reg8 r r 3 :: j :: body ++ l) s tr F.
Proof.
  intros Hm Hj Hd Hr Hb K. set (v := getr R r mod 256). exe (set_fl s (v =? 0) (2 ^ 7 <=? v) false); [cbn [asm_ok]; regok| |].
  - cbn [meaning exec1 rm Z.eqb Pos.eqb]. cbn [rd8]. destruct (Z.ltb_spec r 4); [|lia]. destruct H as (Hg & _). rewrite (Hg r) by lia. rewrite Z.land_diag. reflexivity.
  - apply (W_jcc u base env P O j 4 dd body l _ tr F b Hm Hj Hd).
    + unfold holds. cbn [Z.eqb Pos.eqb zf set_fl]. unfold v. rewrite Hb. reflexivity.
    + specialize (K _ (is_set_fl s R f d m (v =? 0) (2 ^ 7 <=? v) false H)). destruct b; exact K.
Qed.
(** cmp reg, imm32; je / jl *)
Lemma X_cmpi_j j cc r v dd body b : meaning j = IJcc cc dd -> asm_ok j -> dd = off body -> 0 <= r < 8 -> int32_ok v ->
  cc = 4 /\ (getr R r =? w32 v) = b \/ cc = 12 /\ (s32 (getr R r) <? s32 (w32 v)) = b ->
  (forall s', is s' R f d m -> if b then W l s' tr F else W (body ++ l) s' tr F) -> W (ACmp_Rm_Imm32 3 r v :: j :: body ++ l) s tr F.
Proof.
  intros Hm Hj Hd Hr Hv Hb K. set (s1 := flags s (w32 (getr R r - w32 v)) (negb (in_s32 (s32 (getr R r) - s32 (w32 v))))).
  exe s1; [cbn [asm_ok]; regok| |].
  - cbn [meaning exec1 rm Z.eqb Pos.eqb]. rewrite (rd_reg s R f d m r H Hr). reflexivity.
  - destruct (cmp_lt s (getr R r) (w32 v) (is_get _ _ _ _ _ r H Hr) (w32_range v)) as [C1 C2]. fold s1 in C1, C2.
    apply (W_jcc u base env P O j cc dd body l _ tr F b Hm Hj Hd).
    + unfold holds. destruct Hb as [[-> Hb]|[-> Hb]]; cbn [Z.eqb Pos.eqb]; [rewrite C2, Hb; reflexivity|rewrite C1, Hb; reflexivity].
    + specialize (K s1 (is_set_fl _ _ _ _ _ _ _ _ H)). destruct b; exact K.
Qed.
(** cmp reg, reg; jng *)
Lemma X_cmp_jng j r q dd body b : meaning j = IJcc 14 dd -> asm_ok j -> dd = off body -> 0 <= r < 8 -> 0 <= q < 8 -> (s32 (getr R r) <=? s32 (getr R q)) = b ->
  (forall s', is s' R f d m -> if b then W l s' tr F else W (body ++ l) s' tr F) -> W (ACmp_Reg_Rm r q 3 :: j :: body ++ l) s tr F.
Proof.
  intros Hm Hj Hd Hr Hq Hb K. set (s1 := flags s (w32 (getr R r - getr R q)) (negb (in_s32 (s32 (getr R r) - s32 (getr R q))))).
  exe s1; [cbn [asm_ok]; regok| |].
  - cbn [meaning exec1 rm Z.eqb Pos.eqb]. rewrite (rd_reg s R f d m r H Hr), (rd_reg s R f d m q H Hq). reflexivity.
  - pose proof (is_get _ _ _ _ _ r H Hr) as O1. pose proof (is_get _ _ _ _ _ q H Hq) as O2.
    destruct (cmp_lt s (getr R r) (getr R q) O1 O2) as [C1 C2]. fold s1 in C1, C2.
    apply (W_jcc u base env P O j 14 dd body l _ tr F b Hm Hj Hd).
    + unfold holds. cbn [Z.eqb Pos.eqb]. rewrite C1, C2, <- Hb. f_equal.
      pose proof (s32_inj (getr R r) (getr R q) O1 O2) as Inj.
      destruct (Z.eqb_spec (getr R r) (getr R q)) as [E|E]; [rewrite E; symmetry; apply Z.leb_le; lia|].
      cbn [orb]. destruct (Z.ltb_spec (s32 (getr R r)) (s32 (getr R q))), (Z.leb_spec (s32 (getr R r)) (s32 (getr R q))); try reflexivity; lia.
    + specialize (K s1 (is_set_fl _ _ _ _ _ _ _ _ H)). destruct b; exact K.
Qed.
(** xor eax, eax; cmp [b + x], v; setl al *)
Lemma X_setl b x y v c : 0 <= b < 8 -> b <> 4 -> b <> 0 -> -128 <= x <= 127 -> int8_ok v -> w32 (getr R b + x) = y -> (s32 (ld4 m y) <? s32 (w32 v)) = c ->
  (forall s', is s' (setr R 0 (if c then 1 else 0)) f d m -> W l s' tr F) ->
  W (AXor_Reg_Rm 0 0 3 :: ACmp_Rm_Disp8_Imm8 b x v :: ASetCC_Rm8 0 12 :: l) s tr F.
Proof.
  intros Hb N4 N0 Hx Hv Hy Hc K.
  exe (set_rg (flags s 0 false) 0 0); [cbn [asm_ok]; regok| |].
  { cbn [meaning exec1 rm Z.eqb Pos.eqb alu wr]. rewrite Z.lxor_nilpotent. reflexivity. }
  set (s0 := set_rg (flags s 0 false) 0 0).
  assert (I0 : is s0 (setr R 0 0) f d m) by (unfold s0; apply is_set_rg; [unfold flags; apply is_set_fl; exact H|lia|unfold okr, W32; lia]).
  set (s1 := flags s0 (w32 (ld4 m y - w32 v)) (negb (in_s32 (s32 (ld4 m y) - s32 (w32 v))))).
  exe s1; [cbn [asm_ok]; regok| |].
  { cbn [meaning exec1]. rewrite (rd_at s0 _ f d m b x I0 Hb). rewrite get_set by lia. destruct (Z.eqb_spec b 0); [contradiction|]. rewrite Hy. reflexivity. }
  destruct (cmp_lt s0 (ld4 m y) (w32 v) (ld4_range m y (is_bytes _ _ _ _ _ H)) (w32_range v)) as [C1 _]. fold s1 in C1.
  assert (I1 : is s1 (setr R 0 0) f d m) by (unfold s1, flags; apply is_set_fl; exact I0).
  exe (set_rg s1 0 (if c then 1 else 0)); [cbn [asm_ok]; unfold cond_ok; regok| |].
  { cbn [meaning exec1]. unfold holds. cbn [Z.eqb Pos.eqb]. rewrite C1, Hc. cbn [wr8]. replace (rg s1 0) with 0 by reflexivity.
    destruct c; reflexivity. }
  apply K. pose proof (is_set_rg _ _ _ _ _ 0 (if c then 1 else 0) I1 ltac:(lia)) as I2.
  replace (setr (setr R 0 0) 0 (if c then 1 else 0)) with (setr R 0 (if c then 1 else 0)) in I2 by (destruct R; reflexivity).
  apply I2. destruct c; unfold okr, W32; lia.
Qed.
(** calls *)
Lemma X_call r y : 0 <= r < 8 -> w32 (rsp R - 4) = y ->
  (forall e v, e_target e = getr R r -> is (e_in e) (setr R 4 y) f d (st4 m y v) -> e_out e = env (length tr) (e_target e) (e_in e) ->
     W l (e_out e) (tr ++ [e]) (fun tr' => F (e :: tr'))) ->
  W (ACall_Reg r :: l) s tr F.
Proof.
  intros Hr Hy K. assert (Ey : w32 (rg s ESP - 4) = y) by (destruct H as (Hg & _); unfold ESP; rewrite (Hg 4) by lia; exact Hy).
  apply (W_call u base env P O r l s tr F Hr). cbv zeta. apply (K _ (w32 (base + (off P - off l)))).
  - cbn [ev_at e_target]. destruct H as (Hg & _). exact (Hg r Hr).
  - unfold ev_at. cbn [e_in]. unfold push. cbn [rg set_pc mm]. rewrite Ey. replace (mm s) with m by (symmetry; apply H). apply is_set_rg; [|unfold ESP; lia|rewrite <- Hy; apply w32_ok].
    eapply is_set_mm; [eapply is_set_pc; exact H|]. apply sto_bytes. exact (is_bytes _ _ _ _ _ H).
  - reflexivity.
Qed.
End X.

(** ** Reading words from a memory that was written to *)
Lemma ld4_same m a v : 0 <= a -> a + 4 <= W32 -> okr v -> ld4 (st4 m a v) a = v.
Proof. intros A B C. unfold ld4, st4. apply ld_sto_same; [lia | lia |]. exact C. Qed.
Lemma ld4_diff m a v b : 0 <= a -> a + 4 <= W32 -> 0 <= b -> b + 4 <= W32 -> a + 4 <= b \/ b + 4 <= a -> ld4 (st4 m a v) b = ld4 m b.
Proof. intros. unfold ld4, st4. apply ld_sto_diff; lia. Qed.
Lemma st4_out m a v x : 0 <= a -> a + 4 <= W32 -> ~ (a <= x < a + 4) -> st4 m a v x = m x.
Proof. intros. unfold st4. apply sto_out; lia. Qed.
Lemma sto_congr n : forall m m' a v x, m x = m' x -> sto m a n v x = sto m' a n v x.
Proof.
  induction n as [|n IH]; intros m m' a v x H; cbn [sto]; [exact H|]. apply IH. unfold upd. destruct (x =? w32 a); [reflexivity | exact H].
Qed.
Lemma st4_congr m m' a v x : m x = m' x -> st4 m a v x = st4 m' a v x.
Proof. apply sto_congr. Qed.
Lemma ld4_ext m m' a : 0 <= a -> a + 4 <= W32 -> (forall x, a <= x < a + 4 -> m x = m' x) -> ld4 m a = ld4 m' a.
Proof. intros. unfold ld4. apply ld_ext; [lia | lia | assumption]. Qed.

(** ** A tactic that runs one instruction *)
Lemma w32_is x y : x = y -> 0 <= y < W32 -> w32 x = y.
Proof. intros -> H. apply w32_small. exact H. Qed.
Ltac norm_addr x :=
  lazymatch x with
  | ?b - ?n - ?m => let k := eval cbv in (n + m) in constr:(b - k)
  | ?b - ?n + ?m =>
      let k := eval cbv in (n - m) in
      lazymatch k with 0 => constr:(b) | Zpos _ => constr:(b - k) | _ => let j := eval cbv in (- k) in constr:(b + j) end
  | ?b + ?n - ?m =>
      let k := eval cbv in (n - m) in
      lazymatch k with 0 => constr:(b) | Zpos _ => constr:(b + k) | _ => let j := eval cbv in (- k) in constr:(b - j) end
  | _ => constr:(x)
  end.
Ltac is_num x := lazymatch x with 0 => idtac | Zpos _ => idtac | Zneg _ => idtac end.
Ltac bounds := unfold W32 in *; lia.
Ltac addr :=
  lazymatch goal with
  | |- w32 ?x = ?y => is_evar y; first [ let z := norm_addr x in solve [apply (w32_is x z); bounds] | reflexivity ]
  | |- w32 ?x = ?y => solve [apply (w32_is x y); bounds]
  end.
Ltac regs_cbn := cbn [getr setr ra rc rd_ rb rsp rbp rsi rdi] in *.
Ltac rule H :=
  lazymatch goal with
  | |- W _ _ _ _ _ (?i :: _) _ _ _ =>
      lazymatch i with
      | AMov_Reg_Rm _ _ 3 => eapply (X_mov_rr _ _ _ _ _ _ _ _ _ _ _ _ _ H)
      | AMov_Reg_Rm _ _ 0 => eapply (X_mov_rm _ _ _ _ _ _ _ _ _ _ _ _ _ H)
      | AMov_Reg_Rm_DispAuto _ _ _ => eapply (X_load _ _ _ _ _ _ _ _ _ _ _ _ _ H)
      | AMov_Reg_Rm_Disp8 _ _ _ => eapply (X_load8 _ _ _ _ _ _ _ _ _ _ _ _ _ H)
      | AMovzx_Reg32_Rm8_DispAuto _ _ _ => eapply (X_movzx8 _ _ _ _ _ _ _ _ _ _ _ _ _ H)
      | AMovzx_Reg32_Rm8_Disp8 _ _ _ => eapply (X_movzx8d _ _ _ _ _ _ _ _ _ _ _ _ _ H)
      | AMov_Rm_Reg_DispAuto _ _ _ => eapply (X_store _ _ _ _ _ _ _ _ _ _ _ _ _ H)
      | AMov_Rm_Reg_Disp8 _ _ _ => eapply (X_store8 _ _ _ _ _ _ _ _ _ _ _ _ _ H)
      | AMov_Rm_Reg _ _ 0 => eapply (X_store0 _ _ _ _ _ _ _ _ _ _ _ _ _ H)
      | AMov_Rm_Imm32_Disp8 _ _ _ => eapply (X_storei _ _ _ _ _ _ _ _ _ _ _ _ _ H)
      | AMov_Rm8_Reg8_DispAuto _ _ _ => eapply (X_storeb _ _ _ _ _ _ _ _ _ _ _ _ _ H)
      | AMov_Reg_Imm32 _ _ => eapply (X_movi _ _ _ _ _ _ _ _ _ _ _ _ _ H)
      | AMov_Rm_Imm32 _ _ 3 => eapply (X_movi2 _ _ _ _ _ _ _ _ _ _ _ _ _ H)
      | ALea_DispRegImmAuto _ _ _ => eapply (X_lea _ _ _ _ _ _ _ _ _ _ _ _ _ H)
      | ALea_DispRegImm8 _ _ _ => eapply (X_lea8 _ _ _ _ _ _ _ _ _ _ _ _ _ H)
      | ALea_Reg_DispRegMultImm8 _ _ _ _ _ => eapply (X_lea_esp _ _ _ _ _ _ _ _ _ _ _ _ _ H)
      | ALea_Reg_RegMultImm32 _ _ _ _ => eapply (X_lea_mult _ _ _ _ _ _ _ _ _ _ _ _ _ H)
      | APush_Reg _ => eapply (X_push _ _ _ _ _ _ _ _ _ _ _ _ _ H)
      | APush_Rm_DispAuto _ _ => eapply (X_push_rm _ _ _ _ _ _ _ _ _ _ _ _ _ H)
      | APush_Imm32 _ => eapply (X_push_imm _ _ _ _ _ _ _ _ _ _ _ _ _ H)
      | APush_Imm8 _ => eapply (X_push_imm8 _ _ _ _ _ _ _ _ _ _ _ _ _ H)
      | APop_Reg _ => eapply (X_pop _ _ _ _ _ _ _ _ _ _ _ _ _ H)
      | AAdd_Rm_ImmAuto 4 _ 3 => eapply (X_add_esp _ _ _ _ _ _ _ _ _ _ _ _ _ H)
      | AAdd_Rm_Imm8 4 _ 3 => eapply (X_add_esp _ _ _ _ _ _ _ _ _ _ _ _ _ H)
      | AAdd_Rm_Imm32 4 _ 3 => eapply (X_add_esp _ _ _ _ _ _ _ _ _ _ _ _ _ H)
      | ASub_Rm_ImmAuto 4 _ 3 => eapply (X_sub_esp _ _ _ _ _ _ _ _ _ _ _ _ _ H)
      | ASub_Rm_Imm8 4 _ 3 => eapply (X_sub_esp _ _ _ _ _ _ _ _ _ _ _ _ _ H)
      | ASub_Rm_Imm32 4 _ 3 => eapply (X_sub_esp _ _ _ _ _ _ _ _ _ _ _ _ _ H)
      | AXor_Reg_Rm ?r ?r 3 => eapply (X_zero _ _ _ _ _ _ _ _ _ _ _ _ _ H)
      | AAdd_Reg_Rm _ _ 3 => eapply (X_add_rr _ _ _ _ _ _ _ _ _ _ _ _ _ H)
      | ACld => eapply (X_cld _ _ _ _ _ _ _ _ _ _ _ _ _ H)
      | ARepMovsd => eapply (X_movsd _ _ _ _ _ _ _ _ _ _ _ _ _ H)
      | ARepMovsb => eapply (X_movsb _ _ _ _ _ _ _ _ _ _ _ _ _ H)
      | ACall_Reg _ => eapply (X_call _ _ _ _ _ _ _ _ _ _ _ _ _ H)
      end
  end.
Ltac side :=
  regs_cbn;
  lazymatch goal with
  | |- w32 _ = _ => addr
  | |- meaning _ = _ => reflexivity
  | |- asm_ok _ => cbn [asm_ok]; unfold rm_ok, int8_ok, int32_ok; lia
  | |- false = false => reflexivity
  | |- _ = 0 -> _ <> _ => intros; lia
  | |- _ => first [assumption | unfold int32_ok, int8_ok; lia]
  end.
Ltac unreg := unfold EAX, ECX, EDX, EBX, ESP, EBP, ESI, EDI, MOD_REG, MOD_MEM_REG in *.
(** one instruction that is neither a call nor a comparison *)
Ltac go :=
  unreg;
  lazymatch goal with |- W _ _ _ _ _ _ ?s _ _ =>
    lazymatch goal with K : is s _ _ _ _ |- _ =>
      rule K; [side ..|]; regs_cbn;
      let s' := fresh "s" in let K' := fresh "I" in intros s' K'; clear K; try clear s
    end end.
