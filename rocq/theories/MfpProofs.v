(** Lemmas about member function pointers and thunks. *)
From Coq Require Import List ZArith Bool Lia.
From Verif Require Import TrampModel Asm32Model Asm64Model Asm32Spec Asm64Spec Asm32Proofs Asm64Proofs MfpModel MfpSpec.
Import ListNotations.
Local Open Scope Z_scope.
Notation length := List.length.

Lemma bytes_le_is n : forall v, bytes_le n v = le n v.
Proof. induction n as [|n IH]; intros v; cbn [bytes_le le]; [reflexivity|]. rewrite IH. reflexivity. Qed.

Section M.
Variables (P : Z) (mem : Z -> Z).
Hypothesis HP : 0 < P.
Notation M := (2 ^ (8 * P)).

Lemma Mpos : 0 < M. Proof. apply Z.pow_pos_nonneg; lia. Qed.
Lemma wp_small x : 0 <= x < M -> wp P x = x.
Proof. intros H. apply Z.mod_small. exact H. Qed.
Lemma wp_l x y : wp P (wp P x + y) = wp P (x + y).
Proof. unfold wp. rewrite Zplus_mod_idemp_l. reflexivity. Qed.
Lemma wp_idem x : wp P (wp P x) = wp P x.
Proof. unfold wp. apply Zmod_mod. Qed.
Lemma wp_sub x y : wp P (wp P x - y) = wp P (x - y).
Proof. unfold wp. rewrite Zminus_mod_idemp_l. reflexivity. Qed.

Lemma ldb_wp a n : ldb P mem (wp P a) n = ldb P mem a n.
Proof.
  revert a. induction n as [|n IH]; intros a; cbn [ldb]; [reflexivity|]. rewrite wp_idem. f_equal. f_equal.
  rewrite <- (IH (wp P a + 1)), wp_l, IH. reflexivity.
Qed.

Lemma in_mem_app a l1 l2 : in_mem P mem a (l1 ++ l2) -> in_mem P mem a l1 /\ in_mem P mem (a + Z.of_nat (length l1)) l2.
Proof.
  intros H. split; intros i x Hi.
  - apply H. rewrite nth_error_app1; [exact Hi|]. apply nth_error_Some. congruence.
  - rewrite <- Z.add_assoc, <- Nat2Z.inj_add. apply H. rewrite nth_error_app2 by lia.
    replace (length l1 + i - length l1)%nat with i by lia. exact Hi.
Qed.
Lemma in_mem_cons a x l : in_mem P mem a (x :: l) -> b P mem a = x /\ in_mem P mem (a + 1) l.
Proof.
  intros H. split.
  - specialize (H 0%nat x eq_refl). rewrite Z.add_0_r in H. exact H.
  - apply (in_mem_app a [x] l). exact H.
Qed.
Lemma code_at_in l : forall a n, in_mem P mem a l -> (length l <= n)%nat ->
  code_at P mem a n = l ++ code_at P mem (a + Z.of_nat (length l)) (n - length l).
Proof.
  induction l as [|x l IH]; intros a n H Hn.
  - cbn. rewrite Z.add_0_r, Nat.sub_0_r. reflexivity.
  - apply in_mem_cons in H. destruct H as [H1 H2]. cbn [length] in *. destruct n as [|n]; [lia|]. cbn [code_at app].
    unfold b, wp in H1. rewrite H1. f_equal. rewrite (IH (a + 1) n H2) by lia. do 2 f_equal. lia.
Qed.
Lemma code_at_length a n : length (code_at P mem a n) = n.
Proof. revert a. induction n as [|n IH]; intros a; cbn [code_at length]; [reflexivity|]. rewrite IH. reflexivity. Qed.
Lemma ldb_in n : forall a v, in_mem P mem a (bytes_le n v) -> ldb P mem a n = v mod 2 ^ (8 * Z.of_nat n).
Proof.
  induction n as [|n IH]; intros a v H; cbn [bytes_le ldb] in *.
  - symmetry. apply Z.mod_1_r.
  - apply in_mem_cons in H. destruct H as [H1 H2]. unfold b in H1. rewrite H1, (IH _ _ H2).
    replace (8 * Z.of_nat (S n)) with (8 + 8 * Z.of_nat n) by lia. rewrite Z.pow_add_r by lia. change (2 ^ 8) with 256.
    symmetry. apply Z.rem_mul_r; [lia|apply Z.pow_pos_nonneg; lia].
Qed.
End M.

(** cint of numbers that are ints *)
Lemma cint_small x : 0 <= x < 2 ^ 31 -> cint x = x.
Proof.
  intros H. unfold cint. rewrite Z.mod_small by lia. cbv zeta. destruct (Z.ltb_spec x (2 ^ 31)); lia.
Qed.
Lemma cint_big x : 2 ^ 31 <= x < 2 ^ 32 -> cint x < 0.
Proof. intros H. unfold cint. cbv zeta. rewrite Z.mod_small by lia. destruct (Z.ltb_spec x (2 ^ 31)); lia. Qed.

(** *** GCC *)
Definition psize_ok (P : Z) : Prop := P = 4 \/ P = 8.

Lemma gcc_virtual P m out : psize_ok P -> 0 <= g_ptr m < 2 ^ (8 * P) -> g_ptr m mod 2 = 1 ->
  0 <= g_adj m < 2 ^ 31 -> (g_ptr m - 1) mod P = 0 -> (g_ptr m - 1) / P < 2 ^ 31 ->
  exists n, gcc_info P m out = Mfi true (g_adj m) n 0 /\ n * P = g_ptr m - 1.
Proof.
  intros HP Hr Ho Ha Hm Hn. exists ((g_ptr m - 1) / P). unfold gcc_info.
  assert (Odd : Z.odd (g_ptr m) = true) by (rewrite Zmod_odd in Ho; destruct (Z.odd (g_ptr m)); lia).
  rewrite Odd. assert (Hpos : 0 < g_ptr m) by (destruct (Z.eq_dec (g_ptr m) 0) as [E|N]; [rewrite E in Ho; discriminate Ho|lia]).
  assert (HP0 : 0 < P) by (destruct HP; lia).
  rewrite wp_small by lia. rewrite (cint_small (g_adj m)) by lia. rewrite cint_small by (split; [apply Z.div_pos; lia|lia]).
  split; [reflexivity|]. pose proof (Z_div_mod_eq_full (g_ptr m - 1) P). lia.
Qed.

(** *** The thunks *)
Section Run32.
Variable mem : Z -> Z.
Notation in_mem4 := (in_mem 4 mem).

Lemma run32_step fuel a rg l i t :
  in_mem4 a l -> (length l <= window)%nat -> (forall r, Asm32Spec.decode (l ++ r) = Some (i, r)) -> t = Z.of_nat (length l) ->
  run32 mem (S fuel) a rg =
    match i with
    | Asm32Spec.IMov (Asm32Spec.OReg r) o =>
        match ea32 rg o with Some x => run32 mem fuel (a + t) (setr rg r (ldb 4 mem x 4)) | None => None end
    | Asm32Spec.IDec (Asm32Spec.OReg r) => run32 mem fuel (a + t) (setr rg r ((rg r - 1) mod 2 ^ 32))
    | Asm32Spec.IJmp d => run32 mem fuel ((a + t + d) mod 2 ^ 32) rg
    | Asm32Spec.IJmpInd o => match ea32 rg o with Some x => Some (x, rg) | None => None end
    | _ => None
    end.
Proof.
  intros H Hl D ->. cbn [run32]. rewrite (code_at_in 4 mem l a window H Hl), D.
  cbv zeta. rewrite code_at_length. replace (window - (window - length l))%nat with (length l) by lia. reflexivity.
Qed.

Lemma dec_mov_eax_ecx r : Asm32Spec.decode ([139; 1] ++ r) = Some (Asm32Spec.IMov (Asm32Spec.OReg 0) (Asm32Spec.OMem (Some 1) None 0), r).
Proof. reflexivity. Qed.
Lemma dec_mov_eax_esp4 r : Asm32Spec.decode ([139; 68; 36; 4] ++ r) = Some (Asm32Spec.IMov (Asm32Spec.OReg 0) (Asm32Spec.OMem (Some 4) None 4), r).
Proof. reflexivity. Qed.
Lemma dec_mov_eax_eax r : Asm32Spec.decode ([139; 0] ++ r) = Some (Asm32Spec.IMov (Asm32Spec.OReg 0) (Asm32Spec.OMem (Some 0) None 0), r).
Proof. reflexivity. Qed.
Lemma dec_jmp32 d r : - 2 ^ 31 <= d < 2 ^ 31 -> Asm32Spec.decode ((233 :: bytes_le 4 d) ++ r) = Some (Asm32Spec.IJmp d, r).
Proof.
  intros H. rewrite bytes_le_is. change (Asm32Spec.imm 4 (Asm32Model.i32 d ++ r) Asm32Spec.IJmp = Some (Asm32Spec.IJmp d, r)).
  apply Asm32Proofs.imm_i32. exact H.
Qed.
Lemma dec_thunk32 d r : 0 <= d < 2 ^ 31 ->
  Asm32Spec.decode (jmp_thunk d ++ r) = Some (Asm32Spec.IJmpInd (Asm32Spec.OMem (Some 0) None d), r).
Proof.
  intros H. unfold jmp_thunk. destruct (Z.eqb_spec d 0) as [->|N]; [reflexivity|].
  destruct (Z.ltb_spec d 128) as [L|L].
  - change (match Asm32Spec.get_s 1 ([d] ++ r) with Some (x, l) => Some (Asm32Spec.IJmpInd (Asm32Spec.OMem (Some 0) None x), l) | None => None end
            = Some (Asm32Spec.IJmpInd (Asm32Spec.OMem (Some 0) None d), r)).
    replace [d] with (Asm32Model.i8 d) by (unfold Asm32Model.i8; cbn; rewrite Z.mod_small by lia; reflexivity).
    rewrite Asm32Proofs.get_i8 by (unfold int8_ok; lia). reflexivity.
  - rewrite bytes_le_is.
    change (match Asm32Spec.get_s 4 (Asm32Model.i32 d ++ r) with Some (x, l) => Some (Asm32Spec.IJmpInd (Asm32Spec.OMem (Some 0) None x), l) | None => None end
            = Some (Asm32Spec.IJmpInd (Asm32Spec.OMem (Some 0) None d), r)).
    rewrite Asm32Proofs.get_i32 by (unfold Asm32Spec.int32_ok; lia). reflexivity.
Qed.
Lemma jmp_thunk_length d : (length (jmp_thunk d) <= 6)%nat.
Proof. unfold jmp_thunk. destruct (_ =? _); [cbn; lia|]. destruct (_ <? _); cbn; lia. Qed.

Lemma run_thunk32 va n a this : 0 <= 4 * n < 2 ^ 31 -> in_mem4 a (thunk32 va n) ->
  forall rg, passes32 mem va rg this -> exists k rg',
    run32 mem k a rg = Some ((ldb 4 mem (this mod 2 ^ 32) 4 + 4 * n) mod 2 ^ 32, rg') /\ forall r, r <> 0 -> rg' r = rg r.
Proof.
  intros Hn H rg Hp. unfold thunk32 in H. destruct va; cbn [passes32] in Hp.
  - change [139; 68; 36; 4; 139; 0] with ([139; 68; 36; 4] ++ [139; 0]) in H. rewrite <- app_assoc in H.
    apply in_mem_app in H. destruct H as [H1 H]. cbn [length] in H. apply in_mem_app in H. destruct H as [H2 H3]. cbn [length] in H3.
    exists 3%nat. eexists. erewrite run32_step; [|exact H1|unfold window; cbn; lia|exact dec_mov_eax_esp4|reflexivity].
    cbn [ea32]. rewrite Z.add_0_r. unfold passes32 in Hp. rewrite Hp.
    erewrite run32_step; [|exact H2|unfold window; cbn; lia|exact dec_mov_eax_eax|reflexivity]. cbn [ea32].
    erewrite run32_step; [|exact H3|pose proof (jmp_thunk_length (4 * n)); unfold window; lia|intros r; apply dec_thunk32; exact Hn|reflexivity].
    cbn [ea32]. unfold setr. cbn [Z.eqb]. rewrite !Z.add_0_r. split; [reflexivity|].
    intros r Hr. cbv beta. rewrite (proj2 (Z.eqb_neq r 0) Hr). reflexivity.
  - apply in_mem_app in H. destruct H as [H1 H3]. cbn [length] in H3.
    exists 2%nat. eexists. erewrite run32_step; [|exact H1|unfold window; cbn; lia|exact dec_mov_eax_ecx|reflexivity].
    cbn [ea32]. unfold passes32 in Hp. rewrite Hp, !Z.add_0_r.
    erewrite run32_step; [|exact H3|pose proof (jmp_thunk_length (4 * n)); unfold window; lia|intros r; apply dec_thunk32; exact Hn|reflexivity].
    cbn [ea32]. unfold setr. cbn [Z.eqb]. rewrite !Z.add_0_r. split; [reflexivity|].
    intros r Hr. cbv beta. rewrite (proj2 (Z.eqb_neq r 0) Hr). reflexivity.
Qed.

Lemma run_leads32 code a : leads_to 4 mem code a -> forall k rg r, run32 mem k a rg = Some r -> exists k', run32 mem k' code rg = Some r.
Proof.
  intros [->|(d & Hd & Hm & ->)] k rg r E; [exists k; exact E|].
  exists (S k). erewrite run32_step; [|exact Hm|unfold window; cbn; lia|intros x; apply dec_jmp32; exact Hd|reflexivity].
  cbn [length bytes_le]. rewrite <- E. do 2 f_equal.
Qed.
End Run32.

Section Run64.
Variable mem : Z -> Z.
Notation in_mem8 := (in_mem 8 mem).
Lemma run64_step fuel a rg l i t :
  in_mem8 a l -> (length l <= window)%nat -> (forall r, Asm64Spec.decode (l ++ r) = Some (i, r)) -> t = Z.of_nat (length l) ->
  run64 mem (S fuel) a rg =
    match i with
    | Asm64Spec.IMov true (Asm64Spec.OReg r) o =>
        match ea64 rg o with Some x => run64 mem fuel (a + t) (setr rg r (ldb 8 mem x 8)) | None => None end
    | Asm64Spec.IJmp d => run64 mem fuel ((a + t + d) mod 2 ^ 64) rg
    | Asm64Spec.IJmpInd o => match ea64 rg o with Some x => Some (x, rg) | None => None end
    | _ => None
    end.
Proof.
  intros H Hl D ->. cbn [run64]. rewrite (code_at_in 8 mem l a window H Hl), D.
  cbv zeta. rewrite code_at_length. replace (window - (window - length l))%nat with (length l) by lia. reflexivity.
Qed.
Lemma dec_mov_rax_rcx r : Asm64Spec.decode ([72; 139; 1] ++ r) = Some (Asm64Spec.IMov true (Asm64Spec.OReg 0) (Asm64Spec.OMem (Some 1) None 0), r).
Proof. reflexivity. Qed.
Lemma dec_jmp64 d r : - 2 ^ 31 <= d < 2 ^ 31 -> Asm64Spec.decode ((233 :: bytes_le 4 d) ++ r) = Some (Asm64Spec.IJmp d, r).
Proof.
  intros H. rewrite bytes_le_is. change (Asm64Spec.imm32 (Asm64Model.i32 d ++ r) Asm64Spec.IJmp = Some (Asm64Spec.IJmp d, r)).
  apply Asm64Proofs.imm32_i32. exact H.
Qed.
Lemma dec_thunk64 d r : 0 <= d < 2 ^ 31 ->
  Asm64Spec.decode (jmp_thunk d ++ r) = Some (Asm64Spec.IJmpInd (Asm64Spec.OMem (Some 0) None d), r).
Proof.
  intros H. unfold jmp_thunk. destruct (Z.eqb_spec d 0) as [->|N]; [reflexivity|].
  destruct (Z.ltb_spec d 128) as [L|L].
  - change (match Asm64Spec.get_s 1 ([d] ++ r) with Some (x, l) => Some (Asm64Spec.IJmpInd (Asm64Spec.OMem (Some 0) None x), l) | None => None end
            = Some (Asm64Spec.IJmpInd (Asm64Spec.OMem (Some 0) None d), r)).
    replace [d] with (Asm64Model.i8 d) by (unfold Asm64Model.i8; cbn; rewrite Z.mod_small by lia; reflexivity).
    rewrite Asm64Proofs.get_i8 by lia. reflexivity.
  - rewrite bytes_le_is.
    change (match Asm64Spec.get_s 4 (Asm64Model.i32 d ++ r) with Some (x, l) => Some (Asm64Spec.IJmpInd (Asm64Spec.OMem (Some 0) None x), l) | None => None end
            = Some (Asm64Spec.IJmpInd (Asm64Spec.OMem (Some 0) None d), r)).
    rewrite Asm64Proofs.get_i32 by (unfold Asm64Spec.int32_ok; lia). reflexivity.
Qed.
Lemma run_thunk64 n a this : 0 <= 8 * n < 2 ^ 31 -> in_mem8 a (thunk64 n) ->
  forall rg, rg 1 = this -> exists k rg',
    run64 mem k a rg = Some ((ldb 8 mem (this mod 2 ^ 64) 8 + 8 * n) mod 2 ^ 64, rg') /\ forall r, r <> 0 -> rg' r = rg r.
Proof.
  intros Hn H rg Hp. unfold thunk64 in H.
  apply in_mem_app in H. destruct H as [H1 H3]. cbn [length] in H3.
  exists 2%nat. eexists. erewrite run64_step; [|exact H1|unfold window; cbn; lia|exact dec_mov_rax_rcx|reflexivity].
  cbn [ea64]. rewrite Hp, !Z.add_0_r.
  erewrite run64_step; [|exact H3|pose proof (jmp_thunk_length (8 * n)); unfold window; lia|intros r; apply dec_thunk64; exact Hn|reflexivity].
  cbn [ea64]. unfold setr. cbn [Z.eqb]. rewrite !Z.add_0_r. split; [reflexivity|].
  intros r Hr. cbv beta. rewrite (proj2 (Z.eqb_neq r 0) Hr). reflexivity.
Qed.
Lemma run_leads64 code a : leads_to 8 mem code a -> forall k rg r, run64 mem k a rg = Some r -> exists k', run64 mem k' code rg = Some r.
Proof.
  intros [->|(d & Hd & Hm & ->)] k rg r E; [exists k; exact E|].
  exists (S k). erewrite run64_step; [|exact Hm|unfold window; cbn; lia|intros x; apply dec_jmp64; exact Hd|reflexivity].
  cbn [length bytes_le]. rewrite <- E. do 2 f_equal.
Qed.
End Run64.

(** *** What MFI_GetVtblOffset says about them *)
Definition jumps_forward (P : Z) (mem : Z -> Z) (code a : Z) : Prop :=
  code = a \/ exists d, 0 <= d < 2 ^ 31 /\ in_mem P mem code (233 :: bytes_le 4 d) /\ a = (code + 5 + d) mod 2 ^ (8 * P).

Lemma followed P mem code a x : psize_ok P -> (P = 8 -> jumps_forward P mem code a) -> leads_to P mem code a ->
  b P mem a = x -> x <> 233 -> jump_followed P mem code = a.
Proof.
  intros HP Hf Hl Hx Nx. unfold jump_followed.
  assert (C : code = a \/ exists d, (P = 8 -> 0 <= d) /\ - 2 ^ 31 <= d < 2 ^ 31 /\ in_mem P mem code (233 :: bytes_le 4 d) /\ a = (code + 5 + d) mod 2 ^ (8 * P)).
  { destruct HP as [->| ->].
    - destruct Hl as [E|(d & Hd & H)]; [left; exact E|right; exists d]. split; [lia|tauto].
    - destruct (Hf eq_refl) as [E|(d & Hd & H)]; [left; exact E|right; exists d]. split; [lia|]. split; [lia|tauto]. }
  destruct C as [->|(d & Hp & Hd & Hm & ->)].
  - rewrite Hx. destruct (Z.eqb_spec x 233); [contradiction|reflexivity].
  - apply in_mem_cons in Hm. destruct Hm as [H1 H2]. rewrite H1. cbn [Z.eqb Pos.eqb].
    rewrite (ldb_in P mem 4 (code + 1) d H2). change (8 * Z.of_nat 4) with 32. unfold wp.
    destruct HP as [->| ->].
    + change (8 * 4) with 32. rewrite Zplus_mod_idemp_r, Z.add_assoc, Zplus_mod_idemp_r. f_equal.
    + specialize (Hp eq_refl). rewrite (Z.mod_small d) by lia. rewrite (Z.mod_small (5 + d)) by lia. f_equal. ring.
Qed.

Ltac bytes H := repeat (apply in_mem_cons in H; let H1 := fresh "B" in destruct H as [H1 H]).

Lemma jmp_index P mem a d : psize_ok P -> 0 <= d < 2 ^ 31 -> in_mem P mem a (jmp_thunk d) ->
  (if b P mem a =? 255 then
     if b P mem (a + 1) =? 96 then b P mem (a + 2) / P
     else if b P mem (a + 1) =? 160 then ldb P mem (a + 2) 4 / P
     else if b P mem (a + 1) =? 32 then 0 else -1
   else -1) = d / P.
Proof.
  intros HP Hd H. assert (HP0 : 0 < P) by (destruct HP; lia). unfold jmp_thunk in H. destruct (Z.eqb_spec d 0) as [->|N].
  - bytes H. rewrite B, B0. reflexivity.
  - destruct (Z.ltb_spec d 128) as [L|L].
    + bytes H. rewrite <- Z.add_assoc in B1. change (1 + 1) with 2 in B1. rewrite B, B0, B1. reflexivity.
    + cbn [app] in H. apply in_mem_cons in H. destruct H as [B H]. apply in_mem_cons in H. destruct H as [B0 H].
      rewrite <- Z.add_assoc in H. change (1 + 1) with 2 in H.
      rewrite B, B0. cbn [Z.eqb Pos.eqb]. rewrite (ldb_in P mem 4 (a + 2) d H). rewrite Z.mod_small by (change (8 * Z.of_nat 4) with 32; lia). reflexivity.
Qed.

Lemma index32 mem code a va n : 0 <= 4 * n < 2 ^ 31 -> leads_to 4 mem code a -> in_mem 4 mem a (thunk32 va n) ->
  vtbl_offset 4 mem code = n.
Proof.
  intros Hn Hl H. unfold vtbl_offset. unfold thunk32 in H.
  assert (F : jump_followed 4 mem code = a).
  { eapply followed with (x := 139); [left; reflexivity|lia|exact Hl| |lia]. destruct va; bytes H; exact B. }
  rewrite F. replace n with (4 * n / 4) at 1 by (rewrite Z.mul_comm, Z.div_mul; lia).
  destruct va; apply in_mem_app in H; destruct H as [H1 H2]; cbn [length] in H2; bytes H1.
  - rewrite <- ?Z.add_assoc in *. cbn [Z.add Pos.add Pos.succ] in *. rewrite B, B0, B1, B2, B3, B4. cbn [Z.eqb Pos.eqb andb].
    rewrite <- (jmp_index 4 mem (a + 6) (4 * n)); [|left; reflexivity|exact Hn|exact H2].
    rewrite <- ?Z.add_assoc. reflexivity.
  - rewrite B, B0. cbn [Z.eqb Pos.eqb andb].
    rewrite <- (jmp_index 4 mem (a + 2) (4 * n)); [|left; reflexivity|exact Hn|exact H2].
    rewrite <- ?Z.add_assoc. reflexivity.
Qed.
Lemma index64 mem code a n : 0 <= 8 * n < 2 ^ 31 -> jumps_forward 8 mem code a -> in_mem 8 mem a (thunk64 n) ->
  vtbl_offset 8 mem code = n.
Proof.
  intros Hn Hl H. unfold vtbl_offset. unfold thunk64 in H.
  assert (F : jump_followed 8 mem code = a).
  { eapply followed with (x := 72); [right; reflexivity|intros _; exact Hl| | |lia].
    - destruct Hl as [E|(d & Hd & K)]; [left; exact E|right; exists d; split; [lia|exact K]].
    - bytes H. exact B. }
  rewrite F. replace n with (8 * n / 8) at 1 by (rewrite Z.mul_comm, Z.div_mul; lia).
  apply in_mem_app in H; destruct H as [H1 H2]; cbn [length] in H2; bytes H1.
  rewrite <- ?Z.add_assoc in *. cbn [Z.add Pos.add Pos.succ] in *. rewrite B, B0, B1. cbn [Z.eqb Pos.eqb andb].
  rewrite <- (jmp_index 8 mem (a + 3) (8 * n)); [|right; reflexivity|exact Hn|exact H2].
  rewrite <- ?Z.add_assoc. reflexivity.
Qed.

(** *** The other direction, for 32 bits: whatever is taken for a virtual function call is one *)
Section Sound.
Variable mem : Z -> Z.
Hypothesis Hb : forall a, 0 <= mem a < 256.

Lemma ldb_range P a n : 0 <= ldb P mem a n < 2 ^ (8 * Z.of_nat n).
Proof.
  revert a. induction n as [|n IH]; intros a; cbn [ldb]; [cbn; lia|]. specialize (IH (a + 1)). specialize (Hb (wp P a)).
  replace (8 * Z.of_nat (S n)) with (8 + 8 * Z.of_nat n) by lia. rewrite Z.pow_add_r by lia. change (2 ^ 8) with 256. lia.
Qed.
Lemma in_mem_intro P a x l : b P mem a = x -> in_mem P mem (a + 1) l -> in_mem P mem a (x :: l).
Proof.
  intros H1 H2 i y Hi. destruct i as [|i]; cbn in Hi.
  - inversion Hi; subst. rewrite Z.add_0_r. reflexivity.
  - rewrite Nat2Z.inj_succ, <- Z.add_1_l, Z.add_assoc. apply H2. exact Hi.
Qed.
Lemma in_mem_nil P a : in_mem P mem a [].
Proof. intros i x Hi. destruct i; discriminate Hi. Qed.
Lemma in_mem_comp P a l1 l2 : in_mem P mem a l1 -> in_mem P mem (a + Z.of_nat (length l1)) l2 -> in_mem P mem a (l1 ++ l2).
Proof.
  revert a. induction l1 as [|x l1 IH]; intros a H1 H2.
  - cbn in *. rewrite Z.add_0_r in H2. exact H2.
  - apply in_mem_cons in H1. destruct H1 as [Hx H1]. cbn [app]. apply in_mem_intro; [exact Hx|]. apply IH; [exact H1|].
    replace (a + 1 + Z.of_nat (length l1)) with (a + Z.of_nat (length (x :: l1))) by (cbn [length]; lia). exact H2.
Qed.
Lemma in_mem_ldb P n : forall a, in_mem P mem a (bytes_le n (ldb P mem a n)).
Proof.
  induction n as [|n IH]; intros a; cbn [bytes_le ldb]; [apply in_mem_nil|].
  pose proof (Hb (wp P a)) as R. apply in_mem_intro.
  - unfold b. rewrite Z.mul_comm, Z.mod_add by lia. rewrite Z.mod_small by lia. reflexivity.
  - rewrite Z.mul_comm, Z.div_add by lia. rewrite (Z.div_small (mem (wp P a))) by lia. rewrite Z.add_0_l. apply IH.
Qed.
Lemma bytes_le_mod n : forall v, bytes_le n (v mod 2 ^ (8 * Z.of_nat n)) = bytes_le n v.
Proof.
  induction n as [|n IH]; intros v; cbn [bytes_le]; [reflexivity|].
  replace (8 * Z.of_nat (S n)) with (8 + 8 * Z.of_nat n) by lia. rewrite Z.pow_add_r by lia. change (2 ^ 8) with 256.
  rewrite Z.rem_mul_r by (try lia; apply Z.pow_pos_nonneg; lia).
  pose proof (Z.mod_pos_bound v 256 ltac:(lia)) as R. f_equal.
  - rewrite Z.mul_comm, Z.mod_add by lia. apply Z.mod_small. lia.
  - rewrite Z.mul_comm, Z.div_add by lia. rewrite (Z.div_small (v mod 256)) by lia. rewrite Z.add_0_l. apply IH.
Qed.
Lemma sext_range k v : 0 < k -> 0 <= v < 2 ^ k -> - 2 ^ (k - 1) <= Asm32Spec.sext k v < 2 ^ (k - 1) /\ Asm32Spec.sext k v mod 2 ^ k = v
  /\ (0 <= Asm32Spec.sext k v -> Asm32Spec.sext k v = v).
Proof.
  intros Hk Hv. assert (E : 2 ^ k = 2 * 2 ^ (k - 1)) by (rewrite <- Z.pow_succ_r by lia; f_equal; lia).
  unfold Asm32Spec.sext. destruct (Z.ltb_spec v (2 ^ (k - 1))) as [L|L].
  - split; [lia|]. split; [apply Z.mod_small; lia|lia].
  - split; [lia|]. split; [|lia]. replace (v - 2 ^ k) with (v + (-1) * 2 ^ k) by ring. rewrite Z.mod_add by lia. apply Z.mod_small. lia.
Qed.
Lemma in_mem_sext P n a : (0 < n)%nat -> in_mem P mem a (bytes_le n (Asm32Spec.sext (8 * Z.of_nat n) (ldb P mem a n))).
Proof.
  intros Hn. destruct (sext_range (8 * Z.of_nat n) (ldb P mem a n) ltac:(lia) (ldb_range P a n)) as (_ & E & _).
  rewrite <- bytes_le_mod, E. apply in_mem_ldb.
Qed.

Lemma dec_j8 d r : -128 <= d < 128 -> Asm32Spec.decode (([255; 96] ++ bytes_le 1 d) ++ r) = Some (Asm32Spec.IJmpInd (Asm32Spec.OMem (Some 0) None d), r).
Proof.
  intros H. rewrite bytes_le_is.
  change (match Asm32Spec.get_s 1 (Asm32Model.i8 d ++ r) with Some (x, l) => Some (Asm32Spec.IJmpInd (Asm32Spec.OMem (Some 0) None x), l) | None => None end
            = Some (Asm32Spec.IJmpInd (Asm32Spec.OMem (Some 0) None d), r)).
  rewrite Asm32Proofs.get_i8 by (unfold int8_ok; lia). reflexivity.
Qed.
Lemma dec_j32 d r : - 2 ^ 31 <= d < 2 ^ 31 -> Asm32Spec.decode (([255; 160] ++ bytes_le 4 d) ++ r) = Some (Asm32Spec.IJmpInd (Asm32Spec.OMem (Some 0) None d), r).
Proof.
  intros H. rewrite bytes_le_is.
  change (match Asm32Spec.get_s 4 (Asm32Model.i32 d ++ r) with Some (x, l) => Some (Asm32Spec.IJmpInd (Asm32Spec.OMem (Some 0) None x), l) | None => None end
            = Some (Asm32Spec.IJmpInd (Asm32Spec.OMem (Some 0) None d), r)).
  rewrite Asm32Proofs.get_i32 by (unfold Asm32Spec.int32_ok; lia). reflexivity.
Qed.
Lemma dec_j0 r : Asm32Spec.decode ([255; 32] ++ r) = Some (Asm32Spec.IJmpInd (Asm32Spec.OMem (Some 0) None 0), r).
Proof. reflexivity. Qed.

(** the jump through EAX *)
Lemma sound_jmp a n :
  (if b 4 mem a =? 255 then
     if b 4 mem (a + 1) =? 96 then b 4 mem (a + 2) / 4
     else if b 4 mem (a + 1) =? 160 then ldb 4 mem (a + 2) 4 / 4
     else if b 4 mem (a + 1) =? 32 then 0 else -1
   else -1) = n -> 0 <= n ->
  exists d, - 2 ^ 31 <= d < 2 ^ 31 /\ (0 <= d -> n = d / 4) /\
    forall rg, run32 mem 1 a rg = Some ((rg 0 + d) mod 2 ^ 32, rg).
Proof.
  intros E Hn. destruct (Z.eqb_spec (b 4 mem a) 255) as [E0|]; [|lia].
  destruct (Z.eqb_spec (b 4 mem (a + 1)) 96) as [E1|].
  - exists (Asm32Spec.sext 8 (ldb 4 mem (a + 2) 1)).
    destruct (sext_range 8 (ldb 4 mem (a + 2) 1) ltac:(lia) (ldb_range 4 (a + 2) 1)) as (R & _ & S).
    change (2 ^ (8 - 1)) with 128 in R.
    split; [lia|]. split.
    + intros Hd. rewrite (S Hd). rewrite <- E. unfold b. cbn [ldb]. rewrite Z.mul_0_r, Z.add_0_r. reflexivity.
    + intros rg. erewrite (run32_step mem 0 a rg ([255; 96] ++ bytes_le 1 (Asm32Spec.sext 8 (ldb 4 mem (a + 2) 1)))); [| |unfold window; cbn; lia|intros r; apply dec_j8; lia|reflexivity].
      * cbn [ea32]. rewrite Z.add_0_r. reflexivity.
      * apply (in_mem_comp 4 a [255; 96]); [apply in_mem_intro; [exact E0|apply in_mem_intro; [exact E1|apply in_mem_nil]]|].
        apply (in_mem_sext 4 1). lia.
  - destruct (Z.eqb_spec (b 4 mem (a + 1)) 160) as [E1|].
    + exists (Asm32Spec.sext 32 (ldb 4 mem (a + 2) 4)).
      destruct (sext_range 32 (ldb 4 mem (a + 2) 4) ltac:(lia) (ldb_range 4 (a + 2) 4)) as (R & _ & S).
      split; [exact R|]. split.
      * intros Hd. rewrite (S Hd). symmetry. exact E.
      * intros rg. erewrite (run32_step mem 0 a rg ([255; 160] ++ bytes_le 4 (Asm32Spec.sext 32 (ldb 4 mem (a + 2) 4)))); [| |unfold window; cbn; lia|intros r; apply dec_j32; exact R|reflexivity].
        -- cbn [ea32]. rewrite Z.add_0_r. reflexivity.
        -- apply (in_mem_comp 4 a [255; 160]); [apply in_mem_intro; [exact E0|apply in_mem_intro; [exact E1|apply in_mem_nil]]|].
           apply (in_mem_sext 4 4). lia.
    + destruct (Z.eqb_spec (b 4 mem (a + 1)) 32) as [E1|]; [|lia].
      exists 0. split; [lia|]. split; [intros _; symmetry; exact E|].
      intros rg. erewrite (run32_step mem 0 a rg [255; 32]); [| |unfold window; cbn; lia|exact dec_j0|reflexivity].
      * cbn [ea32]. rewrite Z.add_0_r. reflexivity.
      * apply in_mem_intro; [exact E0|apply in_mem_intro; [exact E1|apply in_mem_nil]].
Qed.

Lemma leads_followed code : leads_to 4 mem code (jump_followed 4 mem code).
Proof.
  unfold jump_followed. destruct (Z.eqb_spec (b 4 mem code) 233) as [E|]; [|left; reflexivity].
  right. exists (Asm32Spec.sext 32 (ldb 4 mem (code + 1) 4)).
  destruct (sext_range 32 (ldb 4 mem (code + 1) 4) ltac:(lia) (ldb_range 4 (code + 1) 4)) as (R & S & _).
  split; [exact R|]. split; [apply in_mem_intro; [exact E|apply (in_mem_sext 4 4); lia]|].
  unfold wp. change (8 * 4) with 32. rewrite <- (Zplus_mod_idemp_r (Asm32Spec.sext _ _)), S, Zplus_mod_idemp_r. f_equal. ring.
Qed.

Ltac im := repeat first [apply in_mem_nil | apply in_mem_intro; [rewrite <- ?Z.add_assoc; cbn [Z.add Pos.add Pos.succ]; assumption|]].

Lemma sound32 code n : vtbl_offset 4 mem code = n -> 0 <= n ->
  exists va d, - 2 ^ 31 <= d < 2 ^ 31 /\ (0 <= d -> n = d / 4) /\
    forall this, calls_slot32 mem code va this ((ldb 4 mem (this mod 2 ^ 32) 4 + d) mod 2 ^ 32).
Proof.
  unfold vtbl_offset. pose proof (leads_followed code) as L. set (a := jump_followed 4 mem code) in *. cbv zeta.
  intros E Hn.
  assert (K : exists va a2, (forall this rg, passes32 mem va rg this -> exists rg', rg' 0 = ldb 4 mem (this mod 2 ^ 32) 4 /\
                 (forall r, r <> 0 -> rg' r = rg r) /\
                 forall x, run32 mem 1 a2 rg' = Some x -> exists k, run32 mem k a rg = Some x)
              /\ (if b 4 mem a2 =? 255 then
                  if b 4 mem (a2 + 1) =? 96 then b 4 mem (a2 + 2) / 4
                  else if b 4 mem (a2 + 1) =? 160 then ldb 4 mem (a2 + 2) 4 / 4
                  else if b 4 mem (a2 + 1) =? 32 then 0 else -1
                 else -1) = n).
  { destruct ((b 4 mem a =? 139) && (b 4 mem (a + 1) =? 68) && (b 4 mem (a + 2) =? 36) && (b 4 mem (a + 3) =? 4)
              && (b 4 mem (a + 4) =? 139) && (b 4 mem (a + 5) =? 0)) eqn:C1.
    - repeat (apply andb_prop in C1; let X := fresh "X" in destruct C1 as [C1 X]; apply Z.eqb_eq in X). apply Z.eqb_eq in C1.
      exists true, (a + 6). split; [|exact E]. intros this rg Hp. unfold passes32 in Hp.
      eexists. split; [|split].
      3: { intros x Hx. exists 3%nat.
           erewrite run32_step; [|apply (in_mem_comp 4 a [139; 68; 36; 4] []); [im|im]|unfold window; cbn; lia|exact dec_mov_eax_esp4|reflexivity].
           cbn [ea32]. rewrite Z.add_0_r. rewrite Hp.
           erewrite run32_step; [|apply (in_mem_comp 4 (a + 4) [139; 0] []); [im|im]|unfold window; cbn; lia|exact dec_mov_eax_eax|reflexivity].
           cbn [ea32]. cbn [length Z.of_nat Pos.of_succ_nat Pos.succ]. rewrite <- Z.add_assoc. cbn [Z.add Pos.add Pos.succ]. exact Hx. }
      + unfold setr. cbn [Z.eqb]. rewrite !Z.add_0_r. reflexivity.
      + intros r Hr. unfold setr. rewrite (proj2 (Z.eqb_neq r 0) Hr). reflexivity.
    - destruct ((b 4 mem a =? 139) && (b 4 mem (a + 1) =? 1)) eqn:C2.
      + apply andb_prop in C2. destruct C2 as [C2 X]. apply Z.eqb_eq in C2, X.
        exists false, (a + 2). split; [|exact E]. intros this rg Hp. unfold passes32 in Hp.
        eexists. split; [|split].
        3: { intros x Hx. exists 2%nat.
             erewrite run32_step; [|apply (in_mem_comp 4 a [139; 1] []); [im|im]|unfold window; cbn; lia|exact dec_mov_eax_ecx|reflexivity].
             cbn [ea32]. rewrite !Z.add_0_r, Hp. exact Hx. }
        * unfold setr. cbn [Z.eqb]. reflexivity.
        * intros r Hr. unfold setr. rewrite (proj2 (Z.eqb_neq r 0) Hr). reflexivity.
      + destruct ((b 4 mem a =? 72) && (b 4 mem (a + 1) =? 139) && (b 4 mem (a + 2) =? 1)) eqn:C3; [|lia].
        apply andb_prop in C3. destruct C3 as [C3 X]. apply andb_prop in C3. destruct C3 as [C3 X0]. apply Z.eqb_eq in C3, X, X0.
        exists false, (a + 3). split; [|exact E]. intros this rg Hp. unfold passes32 in Hp.
        eexists. split; [|split].
        3: { intros x Hx. exists 3%nat.
             erewrite run32_step; [|apply (in_mem_comp 4 a [72] []); [im|im]|unfold window; cbn; lia| |reflexivity].
             2: { intros r. instantiate (1 := Asm32Spec.IDec (Asm32Spec.OReg 0)). reflexivity. }
             cbv iota beta.
             erewrite run32_step; [|apply (in_mem_comp 4 (a + 1) [139; 1] []); [im|im]|unfold window; cbn; lia|exact dec_mov_eax_ecx|reflexivity].
             cbn [ea32]. change (setr rg 0 ((rg 0 - 1) mod 2 ^ 32) 1) with (rg 1). rewrite !Z.add_0_r, Hp.
             cbn [length Z.of_nat Pos.of_succ_nat Pos.succ]. rewrite <- Z.add_assoc. cbn [Z.add Pos.add Pos.succ]. exact Hx. }
        * unfold setr. cbn [Z.eqb]. reflexivity.
        * intros r Hr. unfold setr. rewrite (proj2 (Z.eqb_neq r 0) Hr). reflexivity. }
  destruct K as (va & a2 & Hrun & Hj). destruct (sound_jmp a2 n Hj Hn) as (d & Hd & Hdn & Hr).
  exists va, d. split; [exact Hd|]. split; [exact Hdn|]. intros this rg Hp.
  destruct (Hrun this rg Hp) as (rg' & H0 & Hrest & Hk).
  destruct (Hk _ (Hr rg')) as (k & Ek). rewrite H0 in Ek.
  destruct (run_leads32 mem code a L k rg _ Ek) as (k' & Ek').
  exists k', rg'. split; [exact Ek'|exact Hrest].
Qed.
End Sound.
