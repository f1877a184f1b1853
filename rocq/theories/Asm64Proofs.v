(** Proofs for the instruction writer. *)
From Coq Require Import List ZArith Bool Lia.
From Verif Require Import TrampModel Asm64Model Asm64Spec.
Import ListNotations.
Local Open Scope Z_scope.
Notation length := List.length.

(** ** Numbers *)
Lemma get_le (n : nat) : forall (x : Z) (r : list Z), get n (le n x ++ r) = Some (x mod 2 ^ (8 * Z.of_nat n), r).
Proof.
  induction n as [|n IH]; intros x r.
  - cbn [get le app]. change (2 ^ (8 * Z.of_nat 0)) with 1. rewrite Z.mod_1_r. reflexivity.
  - cbn [get le app]. rewrite IH. f_equal. f_equal.
    replace (8 * Z.of_nat (S n)) with (8 + 8 * Z.of_nat n) by lia.
    rewrite Z.pow_add_r by lia. change (2 ^ 8) with 256.
    rewrite (Z.rem_mul_r x 256 (2 ^ (8 * Z.of_nat n))) by lia. lia.
Qed.
Lemma le_length (n : nat) : forall x, length (le n x) = n.
Proof. induction n as [|n IH]; intros x; cbn; auto. Qed.

Lemma get_s_le (n : nat) (x : Z) (r : list Z) : (0 < n)%nat -> - 2 ^ (8 * Z.of_nat n - 1) <= x < 2 ^ (8 * Z.of_nat n - 1) ->
  get_s n (le n x ++ r) = Some (x, r).
Proof.
  intros Hn Hx. unfold get_s. rewrite get_le. f_equal. f_equal. unfold sext.
  set (k := 8 * Z.of_nat n) in *. assert (Hk : 2 ^ k = 2 * 2 ^ (k - 1)).
  { replace k with (Z.succ (k - 1)) at 1 by lia. apply Z.pow_succ_r. lia. }
  destruct (Z_lt_ge_dec x 0) as [H|H].
  - replace (x mod 2 ^ k) with (x + 2 ^ k).
    + destruct (Z.ltb_spec (x + 2 ^ k) (2 ^ (k - 1))); lia.
    + symmetry. rewrite <- (Z.mod_small (x + 2 ^ k) (2 ^ k)) by lia.
      rewrite <- (Z_mod_plus_full x 1 (2 ^ k)). f_equal. lia.
  - rewrite Z.mod_small by lia. destruct (Z.ltb_spec x (2 ^ (k - 1))); lia.
Qed.
Lemma get_i8 x r : -128 <= x <= 127 -> get_s 1 (i8 x ++ r) = Some (x, r).
Proof. intros H. apply get_s_le; [lia|]. change (2 ^ (8 * Z.of_nat 1 - 1)) with 128. lia. Qed.
Lemma get_i32 x r : int32_ok x -> get_s 4 (i32 x ++ r) = Some (x, r).
Proof. intros H. apply get_s_le; [lia|]. exact H. Qed.
Lemma imm32_i32 x r k : int32_ok x -> imm32 (i32 x ++ r) k = Some (k x, r).
Proof. intros H. unfold imm32. rewrite (get_i32 x r H). reflexivity. Qed.
Lemma get4_i32 x r : get 4 (i32 x ++ r) = Some (x mod 2 ^ 32, r).
Proof. apply (get_le 4). Qed.
Lemma get8_i64 x r : get 8 (i64 x ++ r) = Some (x mod 2 ^ 64, r).
Proof. apply (get_le 8). Qed.

(** ** Registers *)
Definition all16 : list Z := map Z.of_nat (seq 0 16).
Lemma in16 r : reg_ok r -> In r all16.
Proof.
  intros H. unfold all16. apply in_map_iff. exists (Z.to_nat r). unfold reg_ok in H. split; [lia|]. apply in_seq. lia.
Qed.
Definition wr (e1 e2 : bool) : Z := 72 + 4 * b2z e1 + b2z e2.
Lemma w_rex_wr r m : w_rex r m = wr (extended r) (extended m).
Proof. unfold w_rex. destruct (extended r), (extended m); reflexivity. Qed.
Lemma pre_WB_wr r : pre_WB r = [wr false (extended r)].
Proof. unfold pre_WB. destruct (extended r); reflexivity. Qed.
Lemma reg_split r : reg_ok r -> plus8 (extended r) (low r) = r /\ 0 <= low r < 8.
Proof.
  intros H. pose proof (in16 r H) as Hi.
  assert (Q : forallb (fun r => (plus8 (extended r) (low r) =? r) && (0 <=? low r) && (low r <? 8)) all16 = true) by (vm_compute; reflexivity).
  rewrite forallb_forall in Q. specialize (Q r Hi). rewrite !andb_true_iff in Q. destruct Q as [[Q1 Q2] Q3].
  apply Z.eqb_eq in Q1. apply Z.leb_le in Q2. apply Z.ltb_lt in Q3. lia.
Qed.

(** fields of a ModRM or SIB byte *)
Lemma fields (a b c : Z) : 0 <= a < 4 -> 0 <= b < 8 -> 0 <= c < 8 ->
  Z.lor (Z.lor (Z.shiftl a 6) (Z.shiftl b 3)) c = 64 * a + 8 * b + c.
Proof.
  intros Ha Hb Hc.
  assert (Q : forallb (fun a => forallb (fun b => forallb (fun c => Z.lor (Z.lor (Z.shiftl a 6) (Z.shiftl b 3)) c =? 64 * a + 8 * b + c) (map Z.of_nat (seq 0 8))) (map Z.of_nat (seq 0 8))) (map Z.of_nat (seq 0 4)) = true) by (vm_compute; reflexivity).
  rewrite forallb_forall in Q.
  assert (I : forall n x, 0 <= x < Z.of_nat n -> In x (map Z.of_nat (seq 0 n))).
  { intros n x Hx. apply in_map_iff. exists (Z.to_nat x). split; [lia|]. apply in_seq. lia. }
  specialize (Q a (I 4%nat a Ha)). rewrite forallb_forall in Q. specialize (Q b (I 8%nat b Hb)).
  rewrite forallb_forall in Q. specialize (Q c (I 8%nat c Hc)). apply Z.eqb_eq in Q. exact Q.
Qed.
Lemma split_byte (a b c : Z) : 0 <= a < 4 -> 0 <= b < 8 -> 0 <= c < 8 ->
  (64 * a + 8 * b + c) / 64 = a /\ ((64 * a + 8 * b + c) / 8) mod 8 = b /\ (64 * a + 8 * b + c) mod 8 = c /\
  u8 (64 * a + 8 * b + c) = 64 * a + 8 * b + c.
Proof.
  intros Ha Hb Hc. repeat split.
  - symmetry. apply (Z.div_unique _ 64 a (8 * b + c)); lia.
  - assert (E : (64 * a + 8 * b + c) / 8 = 8 * a + b) by (symmetry; apply (Z.div_unique _ 8 _ c); lia).
    rewrite E. symmetry. apply (Z.mod_unique _ 8 a b); lia.
  - symmetry. apply (Z.mod_unique _ 8 (8 * a + b) c); lia.
  - unfold u8. apply Z.mod_small. lia.
Qed.

(** register operands *)
Lemma get_modrm_reg rx g r l : 0 <= g < 8 -> reg_ok r -> xb rx = extended r ->
  get_modrm rx (64 * 3 + 8 * g + low r :: l) = Some (g, OReg r, l).
Proof.
  intros Hg Hr Hx. destruct (reg_split r Hr) as [E L].
  destruct (split_byte 3 g (low r) ltac:(lia) Hg L) as (A & B & C & _).
  unfold get_modrm. rewrite A, B, C, Hx, E. reflexivity.
Qed.
Lemma modrm_val r m : reg_ok r -> reg_ok m -> modrm r m = 64 * 3 + 8 * low r + low m.
Proof. intros Hr Hm. apply fields; [unfold REG; lia| |]; apply reg_split; assumption. Qed.
Lemma modrm_rm_val r b : reg_ok r -> 0 <= b < 8 -> u8 (modrm_rm r b) = 64 * 3 + 8 * b + low r.
Proof.
  intros Hr Hb. destruct (reg_split r Hr) as [_ L]. unfold modrm_rm. rewrite fields by (unfold REG; lia).
  apply (split_byte 3 b (low r)); lia.
Qed.

(** memory operands *)
Lemma get_modrm_mem rx m r l : rm_ok m -> 0 <= low r < 8 -> xb rx = extended (rm_reg m) -> xx rx = false ->
  get_modrm rx (write_modrm m r ++ l) = Some (low r, mem m, l).
Proof.
  intros [Hm Hd] Hr Hb Hx. destruct m as [base d]. cbn [rm_reg rm_disp] in *.
  destruct (reg_split base Hm) as [E L].
  assert (Hmod : 0 <= rm_mod (Rm base d) < 3).
  { unfold rm_mod, DISP0, DISP8, DISP32. repeat match goal with |- context [if ?b then _ else _] => destruct b end; lia. }
  unfold write_modrm. cbn [rm_reg rm_disp].
  set (md := rm_mod (Rm base d)) in *.
  assert (V : u8 (rm_modrm (Rm base d) r) = 64 * md + 8 * low r + low base).
  { unfold rm_modrm. fold md. cbn [rm_reg]. rewrite fields by lia. apply split_byte; lia. }
  rewrite V. destruct (split_byte md (low r) (low base) ltac:(lia) Hr L) as (A & B & C & _).
  cbn [app]. unfold get_modrm. rewrite A, B, C.
  destruct (Z.eqb_spec md 3) as [H3|_]; [lia|].
  assert (D : forall l, get_disp md ((if negb (md =? DISP0) then if md =? DISP8 then i8 d else if md =? DISP32 then i32 d else [] else []) ++ l) = Some (d, l)).
  { clear - Hd. intros l. subst md. unfold rm_mod. cbn [rm_reg rm_disp].
    destruct ((d =? 0) && negb (base =? RBP_) && negb (base =? R13_)) eqn:E0.
    - rewrite !andb_true_iff in E0. destruct E0 as [[E0 _] _]. apply Z.eqb_eq in E0. subst d. reflexivity.
    - destruct ((-128 <=? d) && (d <=? 127)) eqn:E1.
      + rewrite andb_true_iff in E1. destruct E1 as [E1 E2]. apply Z.leb_le in E1. apply Z.leb_le in E2.
        change (get_s 1 (i8 d ++ l) = Some (d, l)). apply get_i8. lia.
      + change (get_s 4 (i32 d ++ l) = Some (d, l)). apply get_i32. exact Hd. }
  set (ds := if negb (md =? DISP0) then if md =? DISP8 then i8 d else if md =? DISP32 then i32 d else [] else []) in *.
  assert (N5 : low base = 5 -> md <> 0).
  { intros H5 Z0. assert (B5 : base = RBP_ \/ base = R13_).
    { unfold RBP_, R13_. unfold plus8 in E. destruct (extended base); lia. }
    revert Z0. subst md. unfold rm_mod. cbn [rm_reg rm_disp].
    destruct B5 as [-> | ->]; rewrite ?andb_false_r; cbn [andb negb Z.eqb RBP_ R13_ Pos.eqb];
      rewrite ?andb_false_r; destruct ((-128 <=? d) && (d <=? 127)); unfold DISP8, DISP32; lia. }
  destruct (Z.eqb_spec (low base) 4) as [H4|H4].
  - assert (B4 : (base =? RSP_) || (base =? R12_) = true).
    { apply orb_true_iff. rewrite !Z.eqb_eq. unfold RSP_, R12_. unfold plus8 in E. destruct (extended base); lia. }
    rewrite B4. cbn [app].
    assert (S_ : u8 (sib (Rm base d)) = 64 * 0 + 8 * 4 + 4).
    { unfold sib. cbn [rm_reg]. rewrite H4. reflexivity. }
    rewrite S_. unfold get_sib. rewrite Hx.
    change ((64 * 0 + 8 * 4 + 4) / 64) with 0. change (((64 * 0 + 8 * 4 + 4) / 8) mod 8) with 4. change ((64 * 0 + 8 * 4 + 4) mod 8) with 4.
    cbn [plus8 Z.eqb Pos.eqb andb]. rewrite D, Hb. rewrite <- H4, E. reflexivity.
  - assert (B4 : (base =? RSP_) || (base =? R12_) = false).
    { apply orb_false_iff. rewrite !Z.eqb_neq. unfold RSP_, R12_. split; intros ->; apply H4; reflexivity. }
    rewrite B4. cbn [app].
    destruct ((low base =? 5) && (md =? 0)) eqn:E5.
    { rewrite andb_true_iff, !Z.eqb_eq in E5. destruct E5 as [E5 E6]. destruct (N5 E5 E6). }
    rewrite D, Hb, E. reflexivity.
Qed.

(** ** Opcodes behind a REX prefix *)
Definition plain_ops : list Z := [1; 41; 49; 57; 59; 129; 133; 137; 139; 141; 199; 247].
Lemma dec_wr e1 e2 op l : In op plain_ops -> decode (wr e1 e2 :: op :: l) = decode_op (RexB true e1 false e2) op l.
Proof.
  intros H. unfold plain_ops in H. cbn [In] in H.
  repeat (destruct H as [<- | H]; [destruct e1, e2; reflexivity|]). destruct H.
Qed.
Lemma dec_wr_0f e1 e2 op l : decode (wr e1 e2 :: 15 :: op :: l) = decode_0f (RexB true e1 false e2) op l.
Proof. destruct e1, e2; reflexivity. Qed.
Lemma with_modrm_mem e1 e2 m r l k : rm_ok m -> reg_ok r -> e1 = extended r -> e2 = extended (rm_reg m) ->
  with_modrm (RexB true e1 false e2) (write_modrm m r ++ l) k = k r (mem m) l.
Proof.
  intros Hm Hr -> ->. destruct (reg_split r Hr) as [E L]. unfold with_modrm.
  rewrite get_modrm_mem; [|assumption|assumption|reflexivity|reflexivity]. cbn [xr]. rewrite E. reflexivity.
Qed.
Lemma with_modrm_mem' rx m r l k : rm_ok m -> reg_ok r -> xr rx = extended r -> xb rx = extended (rm_reg m) -> xx rx = false ->
  with_modrm rx (write_modrm m r ++ l) k = k r (mem m) l.
Proof.
  intros Hm Hr H1 H2 H3. destruct (reg_split r Hr) as [E L]. unfold with_modrm.
  rewrite get_modrm_mem; try assumption. rewrite H1, E. reflexivity.
Qed.
Lemma with_modrm_reg e1 e2 a b l k : reg_ok a -> reg_ok b -> e1 = extended b -> e2 = extended a ->
  with_modrm (RexB true e1 false e2) (modrm b a :: l) k = k b (OReg a) l.
Proof.
  intros Ha Hb -> ->. destruct (reg_split b Hb) as [E L]. unfold with_modrm. rewrite modrm_val by assumption.
  rewrite get_modrm_reg; [|assumption|assumption|reflexivity]. cbn [xr]. rewrite E. reflexivity.
Qed.
Lemma with_ext_reg a g l k : reg_ok a -> 0 <= g < 8 ->
  with_ext (RexB true false false (extended a)) (u8 (modrm_rm a g) :: l) k = k g (OReg a) l.
Proof.
  intros Ha Hg. unfold with_ext. rewrite modrm_rm_val by assumption.
  rewrite get_modrm_reg; [reflexivity|assumption|assumption|reflexivity].
Qed.

(** one-byte register opcodes without REX.W *)
Lemma by16 (P : Z -> Prop) : (forall r, In r all16 -> P r) -> forall r, reg_ok r -> P r.
Proof. intros H r Hr. apply H. apply in16. exact Hr. Qed.
Ltac each16 := apply by16; intros r Hr; unfold all16 in Hr; cbn [map seq In Z.of_nat Pos.of_succ_nat Pos.succ] in Hr;
  repeat (destruct Hr as [<- | Hr]; [reflexivity|]); destruct Hr.
Lemma dec_call l : forall r, reg_ok r -> decode (call_r r ++ l) = Some (ICall (OReg r), l).
Proof. each16. Qed.
Lemma dec_jmpr l : forall r, reg_ok r -> decode (jump_r r ++ l) = Some (IJmpInd (OReg r), l).
Proof. each16. Qed.
Lemma dec_push l : forall r, reg_ok r -> decode (push_r r ++ l) = Some (IPush r, l).
Proof. each16. Qed.
Lemma dec_pop l : forall r, reg_ok r -> decode (pop_r r ++ l) = Some (IPop r, l).
Proof. each16. Qed.
Lemma dec_b8 l : forall r, reg_ok r -> decode ((pre_B r ++ [u8 (184 + low r)]) ++ l) =
  match get 4 l with Some (v, l) => Some (IMovImm false (OReg r) v, l) | None => None end.
Proof. each16. Qed.
Lemma dec_b8w l : forall r, reg_ok r -> decode ((pre_WB r ++ [u8 (184 + low r)]) ++ l) =
  match get 8 l with Some (v, l) => Some (IMovImm64 r v, l) | None => None end.
Proof. each16. Qed.

Lemma decode_mov_ri d i l : reg_ok d -> decode (mov_ri d i ++ l) = Some (IMovImm false (OReg d) (i mod 2 ^ 32), l).
Proof.
  intros Hd. unfold mov_ri. replace ((pre_B d ++ [u8 (184 + low d)] ++ i32 i) ++ l) with ((pre_B d ++ [u8 (184 + low d)]) ++ i32 i ++ l)
    by (rewrite <- !app_assoc; reflexivity).
  rewrite dec_b8 by exact Hd. rewrite get4_i32. reflexivity.
Qed.

Theorem decode_emit (a : asm) (l : list Z) : asm_ok a -> decode (emit a ++ l) = Some (meaning a, l).
Proof.
  intros H. destruct a; cbn [asm_ok] in H; cbn [emit meaning];
    try (match type of H with _ /\ _ => destruct H as [H1 H2] end).
  - reflexivity.
  - reflexivity.
  - apply dec_call; exact H.
  - apply dec_jmpr; exact H.
  - change (decode (233 :: i32 off ++ l) = Some (IJmp off, l)). change (imm32 (i32 off ++ l) IJmp = Some (IJmp off, l)). apply imm32_i32; exact H.
  - change (imm32 (i32 off ++ l) (IJcc CE) = Some (IJcc CE off, l)). apply imm32_i32; exact H.
  - change (imm32 (i32 off ++ l) (IJcc CL) = Some (IJcc CL off, l)). apply imm32_i32; exact H.
  - change (imm32 (i32 off ++ l) (IJcc CLE) = Some (IJcc CLE off, l)). apply imm32_i32; exact H.
  - change (imm32 (i32 off ++ l) (IJcc CE) = Some (IJcc CE off, l)). apply imm32_i32; exact H.
  - change (imm32 (i32 off ++ l) (IJcc CNE) = Some (IJcc CNE off, l)). apply imm32_i32; exact H.
  - apply dec_push; exact H.
  - unfold push_i. destruct ((-128 <=? v) && (v <=? 127)) eqn:E.
    + rewrite andb_true_iff in E. destruct E as [E1 E2]. apply Z.leb_le in E1. apply Z.leb_le in E2.
      change (match get_s 1 (i8 v ++ l) with Some (v0, l0) => Some (IPushImm v0, l0) | None => None end = Some (IPushImm v, l)).
      rewrite get_i8 by lia. reflexivity.
    + change (imm32 (i32 v ++ l) IPushImm = Some (IPushImm v, l)). apply imm32_i32; exact H.
  - apply dec_pop; exact H.
  - unfold mov_rr. rewrite w_rex_wr. cbn [app]. rewrite dec_wr by (cbn; tauto).
    change (with_modrm (RexB true (extended src) false (extended dst)) (modrm src dst :: l) (fun r o l => Some (IMov true o (OReg r), l)) = Some (IMov true (OReg dst) (OReg src), l)).
    rewrite with_modrm_reg; auto.
  - unfold mov_mr. rewrite w_rex_wr. cbn [app]. rewrite dec_wr by (cbn; tauto).
    change (with_modrm (RexB true (extended reg) false (extended (rm_reg m))) (write_modrm m reg ++ l) (fun r o l => Some (IMov true o (OReg r), l)) = Some (IMov true (mem m) (OReg reg), l)).
    rewrite with_modrm_mem; auto.
  - unfold mov_rm. rewrite w_rex_wr. cbn [app]. rewrite dec_wr by (cbn; tauto).
    change (with_modrm (RexB true (extended reg) false (extended (rm_reg m))) (write_modrm m reg ++ l) (fun r o l => Some (IMov true (OReg r) o, l)) = Some (IMov true (OReg reg) (mem m), l)).
    rewrite with_modrm_mem; auto.
  - apply decode_mov_ri; exact H1.
  - unfold mov_mi. rewrite pre_WB_wr. cbn [app]. rewrite dec_wr by (cbn; tauto). rewrite <- app_assoc.
    change (with_ext (RexB true false false (extended (rm_reg m))) (write_modrm m 0 ++ i32 imm ++ l)
      (fun e o l => if e =? 0 then imm32 l (IMovImm true o) else None) = Some (IMovImm true (mem m) imm, l)).
    unfold with_ext. rewrite get_modrm_mem; [|exact H1|change (low 0) with 0; lia|reflexivity|reflexivity].
    change (low 0) with 0. cbn [Z.eqb]. apply imm32_i32; exact H2.
  - unfold mov_ru. destruct (Z.leb_spec imm (2 ^ 32 - 1)) as [L|L].
    + rewrite decode_mov_ri by exact H1. destruct (Z.ltb_spec imm (2 ^ 32)); [|lia].
      unfold uint64_ok in H2. rewrite Z.mod_small by lia. reflexivity.
    + destruct (Z.ltb_spec imm (2 ^ 32)); [lia|].
      replace ((pre_WB dst ++ [u8 (184 + low dst)] ++ i64 imm) ++ l) with ((pre_WB dst ++ [u8 (184 + low dst)]) ++ i64 imm ++ l)
        by (rewrite <- !app_assoc; reflexivity).
      rewrite dec_b8w by exact H1. rewrite get8_i64. rewrite Z.mod_small by exact H2. reflexivity.
  - unfold movsd_xm. rewrite w_rex_wr.
    assert (Q : forall e1 e2 l, decode (242 :: wr e1 e2 :: 15 :: 16 :: l) = with_modrm (RexB true e1 false e2) l (fun r o l => Some (IMovsdLoad r o, l)))
      by (intros [] []; reflexivity).
    cbn [app]. rewrite Q. rewrite with_modrm_mem; auto.
  - unfold movsd_mx. rewrite w_rex_wr.
    destruct (extended reg || extended (rm_reg m)) eqn:E.
    + assert (Q : forall e1 e2 l, decode (242 :: wr e1 e2 :: 15 :: 17 :: l) = with_modrm (RexB true e1 false e2) l (fun r o l => Some (IMovsdStore o r, l)))
        by (intros [] []; reflexivity).
      cbn [app]. rewrite Q. rewrite with_modrm_mem; auto.
    + apply orb_false_iff in E. destruct E as [E1 E2]. cbn [app].
      change (with_modrm no_rex (write_modrm m reg ++ l) (fun r o l => Some (IMovsdStore o r, l)) = Some (IMovsdStore (mem m) reg, l)).
      rewrite with_modrm_mem'; auto.
  - unfold add_rr. rewrite w_rex_wr. cbn [app]. rewrite dec_wr by (cbn; tauto).
    change (with_modrm (RexB true (extended src) false (extended dst)) (modrm src dst :: l) (fun r o l => Some (IAlu OpAdd true o (OReg r), l)) = Some (IAlu OpAdd true (OReg dst) (OReg src), l)).
    rewrite with_modrm_reg; auto.
  - unfold add_ri. rewrite pre_WB_wr. cbn [app]. rewrite dec_wr by (cbn; tauto). cbn [decode_op Z.eqb Pos.eqb andb Z.leb Z.compare Z.ltb Pos.compare Pos.compare_cont].
    rewrite with_ext_reg by (auto; lia). cbn [Z.eqb]. apply imm32_i32; exact H2.
  - unfold sub_rr. rewrite w_rex_wr. cbn [app]. rewrite dec_wr by (cbn; tauto).
    change (with_modrm (RexB true (extended src) false (extended dst)) (modrm src dst :: l) (fun r o l => Some (IAlu OpSub true o (OReg r), l)) = Some (IAlu OpSub true (OReg dst) (OReg src), l)).
    rewrite with_modrm_reg; auto.
  - unfold sub_ri. rewrite pre_WB_wr. cbn [app]. rewrite dec_wr by (cbn; tauto). cbn [decode_op Z.eqb Pos.eqb andb Z.leb Z.compare Z.ltb Pos.compare Pos.compare_cont].
    rewrite with_ext_reg by (auto; lia). cbn [Z.eqb Pos.eqb]. apply imm32_i32; exact H2.
  - unfold xor_rr. rewrite w_rex_wr. cbn [app]. rewrite dec_wr by (cbn; tauto).
    change (with_modrm (RexB true (extended src) false (extended dst)) (modrm src dst :: l) (fun r o l => Some (IAlu OpXor true o (OReg r), l)) = Some (IAlu OpXor true (OReg dst) (OReg src), l)).
    rewrite with_modrm_reg; auto.
  - unfold test_rr. rewrite w_rex_wr. cbn [app]. rewrite dec_wr by (cbn; tauto).
    change (with_modrm (RexB true (extended src) false (extended dst)) (modrm src dst :: l) (fun r o l => Some (ITest true o (OReg r), l)) = Some (ITest true (OReg dst) (OReg src), l)).
    rewrite with_modrm_reg; auto.
  - unfold test_ri. rewrite pre_WB_wr. cbn [app]. rewrite dec_wr by (cbn; tauto). cbn [decode_op Z.eqb Pos.eqb andb Z.leb Z.compare Z.ltb Pos.compare Pos.compare_cont].
    rewrite with_ext_reg by (auto; lia). cbn [Z.eqb]. apply imm32_i32; exact H2.
  - unfold cmovne_rm. rewrite w_rex_wr. cbn [app]. rewrite dec_wr_0f.
    change (with_modrm (RexB true (extended reg) false (extended (rm_reg m))) (write_modrm m reg ++ l) (fun r o l => Some (ICmov CNE true r o, l)) = Some (ICmov CNE true reg (mem m), l)).
    rewrite with_modrm_mem; auto.
  - unfold cmovne_rr. rewrite w_rex_wr. cbn [app]. rewrite dec_wr_0f.
    change (with_modrm (RexB true (extended reg) false (extended rm)) (modrm reg rm :: l) (fun r o l => Some (ICmov CNE true r o, l)) = Some (ICmov CNE true reg (OReg rm), l)).
    rewrite with_modrm_reg; auto.
  - unfold cmovge_rm. rewrite w_rex_wr. cbn [app]. rewrite dec_wr_0f.
    change (with_modrm (RexB true (extended reg) false (extended (rm_reg m))) (write_modrm m reg ++ l) (fun r o l => Some (ICmov CGE true r o, l)) = Some (ICmov CGE true reg (mem m), l)).
    rewrite with_modrm_mem; auto.
  - unfold cmovge_rr. rewrite w_rex_wr. cbn [app]. rewrite dec_wr_0f.
    change (with_modrm (RexB true (extended reg) false (extended rm)) (modrm reg rm :: l) (fun r o l => Some (ICmov CGE true r o, l)) = Some (ICmov CGE true reg (OReg rm), l)).
    rewrite with_modrm_reg; auto.
  - unfold cmovg_rm. rewrite w_rex_wr. cbn [app]. rewrite dec_wr_0f.
    change (with_modrm (RexB true (extended reg) false (extended (rm_reg m))) (write_modrm m reg ++ l) (fun r o l => Some (ICmov CG true r o, l)) = Some (ICmov CG true reg (mem m), l)).
    rewrite with_modrm_mem; auto.
  - unfold cmovg_rr. rewrite w_rex_wr. cbn [app]. rewrite dec_wr_0f.
    change (with_modrm (RexB true (extended reg) false (extended rm)) (modrm reg rm :: l) (fun r o l => Some (ICmov CG true r o, l)) = Some (ICmov CG true reg (OReg rm), l)).
    rewrite with_modrm_reg; auto.
  - unfold lea. rewrite w_rex_wr. cbn [app]. rewrite dec_wr by (cbn; tauto).
    change (with_modrm (RexB true (extended reg) false (extended (rm_reg m))) (write_modrm m reg ++ l) (fun r o l => match o with OReg _ => None | _ => Some (ILea true r o, l) end) = Some (ILea true reg (mem m), l)).
    rewrite with_modrm_mem; auto.
  - unfold cmp_rm. rewrite w_rex_wr. cbn [app]. rewrite dec_wr by (cbn; tauto).
    change (with_modrm (RexB true (extended reg) false (extended (rm_reg m))) (write_modrm m reg ++ l) (fun r o l => Some (IAlu OpCmp true (OReg r) o, l)) = Some (IAlu OpCmp true (OReg reg) (mem m), l)).
    rewrite with_modrm_mem; auto.
  - unfold cmp_mr. rewrite w_rex_wr. cbn [app]. rewrite dec_wr by (cbn; tauto).
    change (with_modrm (RexB true (extended reg) false (extended (rm_reg m))) (write_modrm m reg ++ l) (fun r o l => Some (IAlu OpCmp true o (OReg r), l)) = Some (IAlu OpCmp true (mem m) (OReg reg), l)).
    rewrite with_modrm_mem; auto.
  - unfold cmp_rr. rewrite w_rex_wr. cbn [app]. rewrite dec_wr by (cbn; tauto).
    change (with_modrm (RexB true (extended reg) false (extended rm)) (modrm reg rm :: l) (fun r o l => Some (IAlu OpCmp true (OReg r) o, l)) = Some (IAlu OpCmp true (OReg reg) (OReg rm), l)).
    rewrite with_modrm_reg; auto.
  - unfold cmp_ri. rewrite pre_WB_wr. cbn [app]. rewrite dec_wr by (cbn; tauto). cbn [decode_op Z.eqb Pos.eqb andb Z.leb Z.compare Z.ltb Pos.compare Pos.compare_cont].
    rewrite with_ext_reg by (auto; lia). cbn [Z.eqb Pos.eqb]. apply imm32_i32; exact H2.
  - reflexivity.
Qed.

Lemma decode_emit_all (ls : list asm) : Forall asm_ok ls -> forall l,
  decode_all (length ls) (emit_all ls ++ l) = Some (map meaning ls, l).
Proof.
  induction 1 as [|a ls Ha Hl IH]; intros l; cbn [length decode_all map].
  - reflexivity.
  - unfold emit_all. cbn [flat_map]. rewrite <- app_assoc. rewrite decode_emit by exact Ha.
    fold (emit_all ls). rewrite IH. reflexivity.
Qed.

(** every emitted number is a byte *)
Definition is_byte (b : Z) : Prop := 0 <= b < 256.
Lemma le_bytes n : forall v, Forall is_byte (le n v).
Proof. induction n as [|n IH]; intros v; cbn [le]; constructor; [apply Z.mod_pos_bound; lia|apply IH]. Qed.
Lemma u8_byte x : is_byte (u8 x).
Proof. apply Z.mod_pos_bound. lia. Qed.
Lemma write_modrm_bytes m r : Forall is_byte (write_modrm m r).
Proof.
  unfold write_modrm, i8, i32. apply Forall_app. split; [constructor; [apply u8_byte|constructor]|]. apply Forall_app. split.
  - destruct (_ || _); [constructor; [apply u8_byte|constructor]|constructor].
  - destruct (negb _); [|constructor]. destruct (_ =? _); [apply le_bytes|]. destruct (_ =? _); [apply le_bytes|constructor].
Qed.
Definition byteb (b : Z) : bool := (0 <=? b) && (b <? 256).
Lemma byteb_is b : byteb b = true -> is_byte b.
Proof. unfold byteb, is_byte. intros H. apply andb_prop in H. destruct H as [H1 H2]. apply Z.leb_le in H1. apply Z.ltb_lt in H2. lia. Qed.
Definition regs : list Z := map Z.of_nat (seq 0 16).
Lemma reg_in r : reg_ok r -> In r regs.
Proof. intros [H1 H2]. apply in_map_iff. exists (Z.to_nat r). split; [lia|apply in_seq; lia]. Qed.
Lemma w_rex_byte a b : reg_ok a -> reg_ok b -> is_byte (w_rex a b).
Proof.
  intros Ha Hb. apply byteb_is.
  assert (H : forallb (fun x => forallb (fun y => byteb (w_rex x y)) regs) regs = true) by reflexivity.
  rewrite forallb_forall in H. specialize (H a (reg_in a Ha)). cbv beta in H. rewrite forallb_forall in H. exact (H b (reg_in b Hb)).
Qed.
Lemma modrm_byte a b : reg_ok a -> reg_ok b -> is_byte (modrm a b).
Proof.
  intros Ha Hb. apply byteb_is.
  assert (H : forallb (fun x => forallb (fun y => byteb (modrm x y)) regs) regs = true) by reflexivity.
  rewrite forallb_forall in H. specialize (H a (reg_in a Ha)). cbv beta in H. rewrite forallb_forall in H. exact (H b (reg_in b Hb)).
Qed.
Lemma pre_B_bytes r : Forall is_byte (pre_B r).
Proof. unfold pre_B. destruct (extended r); repeat constructor; discriminate. Qed.
Lemma pre_WB_bytes r : Forall is_byte (pre_WB r).
Proof. unfold pre_WB. destruct (extended r); repeat constructor; discriminate. Qed.
Ltac bt := repeat match goal with
  | |- Forall is_byte (_ ++ _) => apply Forall_app; split
  | |- Forall is_byte (_ :: _) => constructor
  | |- Forall is_byte [] => constructor
  | |- Forall is_byte (pre_B _) => apply pre_B_bytes
  | |- Forall is_byte (pre_WB _) => apply pre_WB_bytes
  | |- Forall is_byte (write_modrm _ _) => apply write_modrm_bytes
  | |- Forall is_byte (i8 _) => apply le_bytes
  | |- Forall is_byte (i32 _) => apply le_bytes
  | |- Forall is_byte (i64 _) => apply le_bytes
  | |- Forall is_byte (if ?b then _ else _) => destruct b
  | |- is_byte (u8 _) => apply u8_byte
  | |- is_byte (w_rex _ _) => apply w_rex_byte; assumption
  | |- is_byte (modrm _ _) => apply modrm_byte; assumption
  | |- is_byte _ => apply byteb_is; reflexivity
  end.
Lemma emit_bytes a : asm_ok a -> Forall is_byte (emit a).
Proof.
  intros H; destruct a; cbn [asm_ok] in H;
    try match type of H with _ /\ _ => destruct H as [H1 H2] end;
    try match goal with K : rm_ok ?m |- _ => destruct K as [K1 K2] end;
    cbn [emit];
    unfold breakpoint, rep_movs_bytes, call_r, jump_r, jump_i, jz, jl, jle, je, jne, push_r, push_i, pop_r, mov_rr, mov_mr, mov_rm, mov_ri, mov_mi, mov_ru,
      movsd_xm, movsd_mx, add_rr, add_ri, sub_rr, sub_ri, xor_rr, test_rr, test_ri, cmovne_rm, cmovne_rr, cmovge_rm, cmovge_rr, cmovg_rm, cmovg_rr, lea, cmp_rm, cmp_mr, cmp_rr, cmp_ri, retn, mov_ri; bt.
Qed.
Lemma emit_all_bytes l : Forall asm_ok l -> Forall is_byte (emit_all l).
Proof. induction 1 as [|a l Ha Hl IH]; [constructor|]. apply Forall_app. split; [apply emit_bytes, Ha|exact IH]. Qed.
