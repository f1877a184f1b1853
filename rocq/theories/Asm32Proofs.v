(** Proofs for the IA-32 instruction writer. *)
From Coq Require Import List ZArith Bool Lia.
From Verif Require Import TrampModel Asm32Model Asm32Spec.
Import ListNotations.
Local Open Scope Z_scope.
Notation length := List.length.

(** ** Numbers *)
Lemma get_le (n : nat) : forall (x : Z) (r : list Z), get n (le n x ++ r) = Some (x mod 2 ^ (8 * Z.of_nat n), r).
Proof.
  induction n as [|n IH]; intros x r.
  - cbn [get le app]. change (2 ^ (8 * Z.of_nat 0)) with 1. rewrite Z.mod_1_r. reflexivity.
  - cbn [get le app]. rewrite IH. f_equal. f_equal.
    replace (8 * Z.of_nat (S n)) with (8 + 8 * Z.of_nat n) by lia.
    rewrite Z.pow_add_r by lia. change (2 ^ 8) with 256.
    rewrite (Z.rem_mul_r x 256 (2 ^ (8 * Z.of_nat n))) by lia. lia.
Qed.
Lemma le_length (n : nat) : forall x, length (le n x) = n.
Proof. induction n as [|n IH]; intros x; cbn; auto. Qed.
Lemma get_s_le (n : nat) (x : Z) (r : list Z) : (0 < n)%nat -> - 2 ^ (8 * Z.of_nat n - 1) <= x < 2 ^ (8 * Z.of_nat n - 1) ->
  get_s n (le n x ++ r) = Some (x, r).
Proof.
  intros Hn Hx. unfold get_s. rewrite get_le. f_equal. f_equal. unfold sext.
  set (k := 8 * Z.of_nat n) in *. assert (Hk : 2 ^ k = 2 * 2 ^ (k - 1)).
  { replace k with (Z.succ (k - 1)) at 1 by lia. apply Z.pow_succ_r. lia. }
  destruct (Z_lt_ge_dec x 0) as [H|H].
  - replace (x mod 2 ^ k) with (x + 2 ^ k).
    + destruct (Z.ltb_spec (x + 2 ^ k) (2 ^ (k - 1))); lia.
    + symmetry. rewrite <- (Z.mod_small (x + 2 ^ k) (2 ^ k)) by lia.
      rewrite <- (Z_mod_plus_full x 1 (2 ^ k)). f_equal. lia.
  - rewrite Z.mod_small by lia. destruct (Z.ltb_spec x (2 ^ (k - 1))); lia.
Qed.
Lemma get_i8 x r : int8_ok x -> get_s 1 (i8 x ++ r) = Some (x, r).
Proof. intros H. unfold int8_ok in H. apply get_s_le; [lia|]. change (2 ^ (8 * Z.of_nat 1 - 1)) with 128. lia. Qed.
Lemma get_i32 x r : int32_ok x -> get_s 4 (i32 x ++ r) = Some (x, r).
Proof. intros H. apply get_s_le; [lia|]. exact H. Qed.
Lemma imm_i8 x r k : int8_ok x -> imm 1 (i8 x ++ r) k = Some (k x, r).
Proof. intros H. unfold imm. rewrite (get_i8 x r H). reflexivity. Qed.
Lemma imm_i32 x r k : int32_ok x -> imm 4 (i32 x ++ r) k = Some (k x, r).
Proof. intros H. unfold imm. rewrite (get_i32 x r H). reflexivity. Qed.
Lemma uimm_u8 x r k : uint8_ok x -> uimm 1 (x :: r) k = Some (k x, r).
Proof. intros H. unfold uimm. cbn [get]. rewrite Z.mul_0_r, Z.add_0_r. reflexivity. Qed.
Lemma uimm_u16 x r k : uint16_ok x -> uimm 2 (le 2 x ++ r) k = Some (k x, r).
Proof.
  intros H. unfold uimm. rewrite get_le. change (2 ^ (8 * Z.of_nat 2)) with 65536.
  rewrite Z.mod_small by exact H. reflexivity.
Qed.

(** ** ModRM and SIB bytes *)
Lemma fields (a b c : Z) : 0 <= a < 4 -> 0 <= b < 8 -> 0 <= c < 8 ->
  u8 (Z.lor (Z.lor (Z.shiftl a 6) (Z.shiftl b 3)) c) = 64 * a + 8 * b + c.
Proof.
  intros Ha Hb Hc.
  assert (Q : forallb (fun a => forallb (fun b => forallb (fun c => u8 (Z.lor (Z.lor (Z.shiftl a 6) (Z.shiftl b 3)) c) =? 64 * a + 8 * b + c) (map Z.of_nat (seq 0 8))) (map Z.of_nat (seq 0 8))) (map Z.of_nat (seq 0 4)) = true) by (vm_compute; reflexivity).
  rewrite forallb_forall in Q.
  assert (I : forall n x, 0 <= x < Z.of_nat n -> In x (map Z.of_nat (seq 0 n))).
  { intros n x Hx. apply in_map_iff. exists (Z.to_nat x). split; [lia|]. apply in_seq. lia. }
  specialize (Q a (I 4%nat a Ha)). rewrite forallb_forall in Q. specialize (Q b (I 8%nat b Hb)).
  rewrite forallb_forall in Q. specialize (Q c (I 8%nat c Hc)). apply Z.eqb_eq in Q. exact Q.
Qed.
Lemma split_byte (a b c : Z) : 0 <= a < 4 -> 0 <= b < 8 -> 0 <= c < 8 ->
  (64 * a + 8 * b + c) / 64 = a /\ ((64 * a + 8 * b + c) / 8) mod 8 = b /\ (64 * a + 8 * b + c) mod 8 = c.
Proof.
  intros Ha Hb Hc. repeat split.
  - symmetry. apply (Z.div_unique _ 64 a (8 * b + c)); lia.
  - assert (E : (64 * a + 8 * b + c) / 8 = 8 * a + b) by (symmetry; apply (Z.div_unique _ 8 _ c); lia).
    rewrite E. symmetry. apply (Z.mod_unique _ 8 a b); lia.
  - symmetry. apply (Z.mod_unique _ 8 (8 * a + b) c); lia.
Qed.
Lemma gm_reg g r l : 0 <= g < 8 -> reg_ok r -> get_modrm (modrm 3 g r :: l) = Some (g, OReg r, l).
Proof.
  intros Hg Hr. unfold modrm. rewrite fields by (unfold reg_ok in *; lia).
  destruct (split_byte 3 g r ltac:(lia) Hg Hr) as (A & B & C). unfold get_modrm. rewrite A, B, C. reflexivity.
Qed.
Lemma gm_rm md g r l : 0 <= g < 8 -> rm_ok md r -> get_modrm (modrm md g r :: l) = Some (g, rm md r, l).
Proof.
  intros Hg [Hr [->|[-> [H4 H5]]]].
  - rewrite gm_reg by assumption. reflexivity.
  - unfold modrm. rewrite fields by lia. destruct (split_byte 0 g r ltac:(lia) Hg Hr) as (A & B & C).
    unfold get_modrm. rewrite A, B, C. cbn [Z.eqb]. destruct (Z.eqb_spec r 4); [lia|]. destruct (Z.eqb_spec r 5); [lia|]. reflexivity.
Qed.
Lemma gm_mem0 g r l : 0 <= g < 8 -> no45 r -> get_modrm (modrm 0 g r :: l) = Some (g, at_ r 0, l).
Proof. intros Hg [Hr [H4 H5]]. rewrite (gm_rm 0 g r l Hg); [reflexivity|]. split; [exact Hr|]. right. auto. Qed.
Lemma gm_d8 g r d l : 0 <= g < 8 -> base_ok r -> int8_ok d -> get_modrm (modrm 1 g r :: i8 d ++ l) = Some (g, at_ r d, l).
Proof.
  intros Hg [Hr H4] Hd. unfold modrm. rewrite fields by lia. destruct (split_byte 1 g r ltac:(lia) Hg Hr) as (A & B & C).
  unfold get_modrm. rewrite A, B, C. cbn [Z.eqb Pos.eqb]. destruct (Z.eqb_spec r 4); [lia|]. rewrite andb_false_r.
  unfold get_disp. cbn [Z.eqb Pos.eqb]. rewrite get_i8 by exact Hd. reflexivity.
Qed.
Lemma gm_d32 g r d l : 0 <= g < 8 -> base_ok r -> int32_ok d -> get_modrm (modrm 2 g r :: i32 d ++ l) = Some (g, at_ r d, l).
Proof.
  intros Hg [Hr H4] Hd. unfold modrm. rewrite fields by lia. destruct (split_byte 2 g r ltac:(lia) Hg Hr) as (A & B & C).
  unfold get_modrm. rewrite A, B, C. cbn [Z.eqb Pos.eqb]. destruct (Z.eqb_spec r 4); [lia|]. rewrite andb_false_r.
  unfold get_disp. cbn [Z.eqb Pos.eqb]. rewrite get_i32 by exact Hd. reflexivity.
Qed.
Lemma gm_to_sib md g l : 0 <= md < 3 -> 0 <= g < 8 ->
  get_modrm (modrm md g 4 :: l) = match get_sib md l with Some (o, l) => Some (g, o, l) | None => None end.
Proof.
  intros Hm Hg. unfold modrm. rewrite fields by lia.
  destruct (split_byte md g 4 ltac:(lia) Hg ltac:(lia)) as (A & B & C).
  unfold get_modrm. rewrite A, B, C. destruct (Z.eqb_spec md 3); [lia|]. reflexivity.
Qed.
Lemma sib_fields s i b l md (K : option (operand * list Z)) : scale_ok s -> reg_ok i -> reg_ok b ->
  get_sib md (sib s i b :: l) =
    let index := if i =? 4 then None else Some (i, 2 ^ s) in
    if (b =? 5) && (md =? 0)
    then match get_s 4 l with Some (d, l) => Some (OMem None index d, l) | None => None end
    else match get_disp md l with Some (d, l) => Some (OMem (Some b) index d, l) | None => None end.
Proof.
  intros Hs Hi Hb. unfold sib. unfold scale_ok, reg_ok in *. rewrite fields by lia.
  destruct (split_byte s i b Hs Hi Hb) as (A & B & C). unfold get_sib. rewrite A, B, C. reflexivity.
Qed.
Lemma gm_sib0 g s i b l : 0 <= g < 8 -> scale_ok s -> reg_ok i -> no5 b ->
  get_modrm (modrm 0 g 4 :: sib s i b :: l) = Some (g, atx b i s 0, l).
Proof.
  intros Hg Hs Hi [Hb H5]. rewrite gm_to_sib by lia. rewrite (sib_fields s i b l 0 None Hs Hi Hb). cbv zeta.
  destruct (Z.eqb_spec b 5); [lia|]. reflexivity.
Qed.
Lemma gm_sib8 g s i b d l : 0 <= g < 8 -> scale_ok s -> reg_ok i -> reg_ok b -> int8_ok d ->
  get_modrm (modrm 1 g 4 :: sib s i b :: i8 d ++ l) = Some (g, atx b i s d, l).
Proof.
  intros Hg Hs Hi Hb Hd. rewrite gm_to_sib by lia. rewrite (sib_fields s i b _ 1 None Hs Hi Hb). cbv zeta.
  rewrite andb_false_r. unfold get_disp. cbn [Z.eqb]. rewrite get_i8 by exact Hd. reflexivity.
Qed.
Lemma gm_sib32 g s i b d l : 0 <= g < 8 -> scale_ok s -> reg_ok i -> reg_ok b -> int32_ok d ->
  get_modrm (modrm 2 g 4 :: sib s i b :: i32 d ++ l) = Some (g, atx b i s d, l).
Proof.
  intros Hg Hs Hi Hb Hd. rewrite gm_to_sib by lia. rewrite (sib_fields s i b _ 2 None Hs Hi Hb). cbv zeta.
  rewrite andb_false_r. unfold get_disp. cbn [Z.eqb Pos.eqb]. rewrite get_i32 by exact Hd. reflexivity.
Qed.
Lemma gm_sibnb g s i d l : 0 <= g < 8 -> scale_ok s -> noidx_ok i -> int32_ok d ->
  get_modrm (modrm 0 g 4 :: sib s i 5 :: i32 d ++ l) = Some (g, OMem None (Some (i, 2 ^ s)) d, l).
Proof.
  intros Hg Hs [Hi H4] Hd. rewrite gm_to_sib by lia. rewrite (sib_fields s i 5 _ 0 None Hs Hi ltac:(unfold reg_ok; lia)).
  cbv zeta. cbn [Z.eqb Pos.eqb andb]. rewrite get_i32 by exact Hd. destruct (Z.eqb_spec i 4); [lia|]. reflexivity.
Qed.
Lemma gm_esp0 g l : 0 <= g < 8 -> get_modrm (modrm 0 g 4 :: sib 0 4 4 :: l) = Some (g, at_ 4 0, l).
Proof. intros Hg. rewrite (gm_sib0 g 0 4 4 l); [reflexivity|lia|unfold scale_ok; lia|unfold reg_ok; lia|unfold no5; lia]. Qed.
Lemma gm_esp8 g d l : 0 <= g < 8 -> int8_ok d -> get_modrm (modrm 1 g 4 :: sib 0 4 4 :: i8 d ++ l) = Some (g, at_ 4 d, l).
Proof. intros Hg Hd. rewrite (gm_sib8 g 0 4 4 d l); [reflexivity|lia|unfold scale_ok; lia|unfold reg_ok; lia|unfold reg_ok; lia|exact Hd]. Qed.

Lemma reg_cases r : reg_ok r -> r = 0 \/ r = 1 \/ r = 2 \/ r = 3 \/ r = 4 \/ r = 5 \/ r = 6 \/ r = 7.
Proof. unfold reg_ok. lia. Qed.
Lemma cond_cases c : cond_ok c -> c = 0 \/ c = 1 \/ c = 2 \/ c = 3 \/ c = 4 \/ c = 5 \/ c = 6 \/ c = 7 \/
  c = 8 \/ c = 9 \/ c = 10 \/ c = 11 \/ c = 12 \/ c = 13 \/ c = 14 \/ c = 15.
Proof. unfold cond_ok. lia. Qed.
Lemma fits8_spec v : fits8 v = true <-> int8_ok v.
Proof. unfold fits8, int8_ok. rewrite andb_true_iff, !Z.leb_le. tauto. Qed.

(** rewriting with the lemma that fits the operand *)
Ltac side := try assumption; try (unfold reg_ok, base_ok, no5, no45, noidx_ok, rm_ok, scale_ok, int8_ok, int32_ok in *; lia).
Ltac gm :=
  first [ rewrite gm_esp0 by side | rewrite gm_esp8 by side | rewrite gm_sibnb by side
        | rewrite gm_sib8 by side | rewrite gm_sib32 by side | rewrite gm_sib0 by side
        | rewrite gm_reg by side | rewrite gm_d8 by side | rewrite gm_d32 by side | rewrite gm_mem0 by side | rewrite gm_rm by side ].
Ltac im := first [ rewrite imm_i8 by side | rewrite imm_i32 by side | rewrite uimm_u8 by side | rewrite uimm_u16 by side ].
Ltac rdc := cbn -[get_modrm imm REG_SIB uimm modrm sib i8 i32 le rm at_ atx Z.pow]; unfold with_mem, with_modrm, decode_fpu, with_modrm, REG_SIB; rewrite <- ?app_assoc.
Ltac dec := unfold REG_SIB; cbn [app]; rewrite <- ?app_assoc; rdc; repeat first [gm; rdc | im; rdc]; try reflexivity.
Ltac regc H r := pose proof (reg_cases r H) as [->|[->|[->|[->|[->|[->|[->| ->]]]]]]].
Ltac condc H c := pose proof (cond_cases c H) as [->|[->|[->|[->|[->|[->|[->|[->|[->|[->|[->|[->|[->|[->|[->| ->]]]]]]]]]]]]]]].

Ltac autos := unfold Add_Rm_ImmAuto, Sub_Rm_ImmAuto, Lea_DispRegImmAuto, Push_Rm_DispAuto, Mov_Reg_Rm_DispAuto, Mov_Rm8_Reg8_DispAuto,
  Mov_Rm_Reg_DispAuto, Fstp_Mem32_DispAuto, Fstp_Mem64_DispAuto, Fld_Mem32_DispAuto, Fld_Mem64_DispAuto,
  Movzx_Reg32_Rm8_DispAuto, Movzx_Reg32_Rm16_DispAuto, MOD_MEM_REG.
Ltac f8 v := let F := fresh "F" in destruct (fits8 v) eqn:F; [apply fits8_spec in F|].

Lemma decode_emit (a : asm) (rest : list Z) : asm_ok a -> decode (emit a ++ rest) = Some (meaning a, rest).
Proof.
  destruct a; cbn [asm_ok emit meaning]; intros H;
    repeat match goal with H : _ /\ _ |- _ => destruct H end.
  all: try solve [dec].
  all: try solve [match goal with H : reg_ok ?r |- _ => regc H r; reflexivity end].
  all: try solve [dec; unfold at_; rdc; reflexivity].
  all: try solve [autos; match goal with |- context [fits8 ?v] => f8 v; dec end].
  all: try solve [match goal with H : cond_ok ?c |- _ => condc H c; dec end].
  all: try solve [match goal with H : reg_ok ?r |- _ => regc H r; dec end].
  all: try solve [subst; dec].
  all: try solve [autos; destruct (Z.eqb_spec disp 0) as [->|N]; [dec; unfold at_; rdc; reflexivity|];
    destruct (Z.leb_spec disp 127) as [L|L]; dec; unfold at_; rdc; reflexivity].
  all: try solve [autos; replace ((-128 <? disp) && (disp <? 127)) with true by lia; dec; unfold at_; rdc; reflexivity].

  all: tauto.
Qed.

Lemma decode_emit_all (ls : list asm) : Forall asm_ok ls -> forall l,
  decode_all (length ls) (emit_all ls ++ l) = Some (map meaning ls, l).
Proof.
  induction 1 as [|a ls Ha Hl IH]; intros l; cbn [length decode_all map].
  - reflexivity.
  - unfold emit_all. cbn [flat_map]. rewrite <- app_assoc. rewrite decode_emit by exact Ha.
    fold (emit_all ls). rewrite IH. reflexivity.
Qed.

(** every emitted number is a byte *)
Definition is_byte (b : Z) : Prop := 0 <= b < 256.
Lemma le_bytes n : forall v, Forall is_byte (le n v).
Proof. induction n as [|n IH]; intros v; cbn [le]; constructor; [apply Z.mod_pos_bound; lia|apply IH]. Qed.
Lemma u8_byte x : is_byte (u8 x).
Proof. apply Z.mod_pos_bound. lia. Qed.
Ltac bt := repeat match goal with
  | |- Forall is_byte (_ ++ _) => apply Forall_app; split
  | |- Forall is_byte (_ :: _) => constructor
  | |- Forall is_byte [] => constructor
  | |- Forall is_byte (i8 _) => apply le_bytes
  | |- Forall is_byte (i32 _) => apply le_bytes
  | |- Forall is_byte (le _ _) => apply le_bytes
  | |- Forall is_byte (if ?b then _ else _) => destruct b
  | |- is_byte (u8 _) => apply u8_byte
  | |- is_byte (modrm _ _ _) => apply u8_byte
  | |- is_byte (sib _ _ _) => apply u8_byte
  end.
Ltac head t := lazymatch t with ?f _ => head f | _ => t end.
Ltac unf := match goal with |- Forall is_byte ?l => let h := head l in unfold h end.
Lemma emit_bytes a : asm_ok a -> Forall is_byte (emit a).
Proof.
  intros H; destruct a; cbn [asm_ok] in H; cbn [emit];
    repeat match goal with K : _ /\ _ |- _ => destruct K end;
    repeat (progress bt || unf); unfold is_byte, reg_ok, base_ok, cond_ok, uint8_ok in *; try lia.
Qed.
Lemma emit_all_bytes l : Forall asm_ok l -> Forall is_byte (emit_all l).
Proof. induction 1 as [|a l Ha Hl IH]; [constructor|]. apply Forall_app. split; [apply emit_bytes, Ha|exact IH]. Qed.
