(** Single instructions inside the frame of the hook function. *)
From Coq Require Import List ZArith Bool Lia.
From Verif Require Import TrampModel ProtoModel GenModel Asm64Model Asm64Spec Asm64Proofs Mach64 Mach64Proofs Mach64Mem Jit64Model Jit64Spec Jit64Base Jit64PubProofs Jit64HookSpec Jit64HookList Jit64Run Jit64Frame.
Import ListNotations.
Local Open Scope Z_scope.
Notation length := List.length.

Definition isvol (r : Z) : bool := existsb (Z.eqb r) [0; 1; 2; 8; 9; 10; 11].
Lemma wf_set_rg s r v : wf s -> 0 <= v < W64 -> wf (set_rg s r v).
Proof. intros (W1 & W2 & W3) Hv. split; [|split]; [|exact W2|exact W3]. intros j. cbn [rg set_rg]. unfold upd. destruct (j =? r); [exact Hv|apply W1]. Qed.
Lemma wf_set_xm s r v : wf s -> 0 <= v < W64 -> wf (set_xm s r v).
Proof. intros (W1 & W2 & W3) Hv. split; [|split]; [exact W1| |exact W3]. intros j. cbn [xm set_xm]. unfold upd. destruct (j =? r); [exact Hv|apply W2]. Qed.
Lemma wf_set_mm s m : wf s -> bytes_ok m -> wf (set_mm s m).
Proof. intros (W1 & W2 & W3) Hv. split; [|split]; [exact W1|exact W2|exact Hv]. Qed.
Lemma wf_set_fl s a b c : wf s -> wf (set_fl s a b c).
Proof. intros (W1 & W2 & W3). split; [|split]; [exact W1|exact W2|exact W3]. Qed.
Lemma wf_bytes s : wf s -> bytes_ok (mm s). Proof. intros (_ & _ & H). exact H. Qed.

Section Steps.
Variables (s0 : st) (fs : Z).
Variable B : Z.
Hypothesis HB : rg s0 RSP = B.
Hypothesis Hsp : 2 ^ 20 <= B <= W64 - 2 ^ 20.
Hypothesis Hfs : 0 <= fs <= 2 ^ 18 + 2 ^ 8.
Notation I := (Jit64Frame.I s0 fs B).

Lemma I_set_rg c s r v : I c s -> isvol r = true -> 0 <= v < W64 -> I c (set_rg s r v).
Proof.
  intros [E1 E2 E3 E4] Hr Hv. unfold isvol in Hr. apply existsb_exists in Hr. destruct Hr as (x & Hx & Ex). apply Z.eqb_eq in Ex. subst x. cbn [In] in Hx.
  constructor; cbn [rg set_rg].
  - rewrite upd_diff; [exact E1|unfold RSP; lia].
  - rewrite upd_diff; [exact E2|unfold RBP; lia].
  - intros j Hj. rewrite upd_diff; [apply E3, Hj|]. cbn [In] in Hj. unfold RBX, RSI, RDI in Hj. lia.
  - apply wf_set_rg; assumption.
Qed.
Lemma I_sp c c' s v : I c s -> v = B - fs - c' -> 0 <= c' <= 2 ^ 19 + 2 ^ 12 -> I c' (set_rg s RSP v).
Proof.
  intros [E1 E2 E3 E4] Hv Hc. constructor; cbn [rg set_rg].
  - rewrite upd_same. exact Hv.
  - rewrite upd_diff by discriminate. exact E2.
  - intros j Hj. rewrite upd_diff; [apply E3, Hj|]. cbn [In] in Hj. unfold RBX, RSI, RDI, RSP in *. lia.
  - apply wf_set_rg; [exact E4|]. rewrite Hv. unfold W64 in *. lia.
Qed.
Lemma I_set_mm c s m : I c s -> bytes_ok m -> I c (set_mm s m).
Proof. intros [E1 E2 E3 E4] Hm. constructor; [exact E1|exact E2|exact E3|apply wf_set_mm; assumption]. Qed.
Lemma I_set_xm c s r v : I c s -> 0 <= v < W64 -> I c (set_xm s r v).
Proof. intros [E1 E2 E3 E4] Hm. constructor; [exact E1|exact E2|exact E3|apply wf_set_xm; assumption]. Qed.
Lemma I_set_fl c s x y z : I c s -> I c (set_fl s x y z).
Proof. intros [E1 E2 E3 E4]. constructor; [exact E1|exact E2|exact E3|apply wf_set_fl; assumption]. Qed.
Lemma I_bytes c s : I c s -> bytes_ok (mm s). Proof. intros H. apply wf_bytes, H. Qed.
Lemma I_rg c s r : I c s -> 0 <= rg s r < W64. Proof. intros H. apply H. Qed.
Lemma I_xm c s r : I c s -> 0 <= xm s r < W64. Proof. intros H. apply H. Qed.

Definition ok (l : list asm) (s : st) (Q : st -> Prop) : Prop := exists s', xs l s = Some s' /\ Q s'.
Lemma ok_nil s (Q : st -> Prop) : Q s -> ok [] s Q.
Proof. intros H. exists s. split; [reflexivity|exact H]. Qed.
Lemma ok_app l1 l2 s Q : ok l1 s (fun s1 => ok l2 s1 Q) -> ok (l1 ++ l2) s Q.
Proof. intros (s1 & E1 & s2 & E2 & H). exists s2. rewrite xs_app, E1. split; assumption. Qed.
Lemma ok_any a l s s1 Q : exec1 (meaning a) s = Some s1 -> ok l s1 Q -> ok (a :: l) s Q.
Proof. intros E (s2 & E2 & H). exists s2. rewrite (xs_cons _ _ _ _ E). split; assumption. Qed.

Lemma wB d : - 2 ^ 20 <= d < 2 ^ 20 -> w64 (B + 0 + d) = B + d.
Proof. intros H. rewrite w64_small; unfold W64 in *; lia. Qed.
Lemma ok_load c s r d l v Q : I c s -> isvol r = true -> - 2 ^ 20 <= d < 2 ^ 20 ->
  ld8 (mm s) (B + d) = v -> (I c (set_rg s r v) -> ok l (set_rg s r v) Q) -> ok (AMovRM r (Rm RBP d) :: l) s Q.
Proof.
  intros H Hr Hd <- K. eapply ok_any; [|apply K].
  - cbn [meaning mem rm_reg rm_disp exec1 rd64 ea wr64]. rewrite (i_bp _ _ _ _ _ H). rewrite ?HB. rewrite wB by exact Hd. reflexivity.
  - apply I_set_rg; [exact H|exact Hr|apply ld8_range, (I_bytes _ _ H)].
Qed.
Lemma ok_loadr c s r b d l v Q : I c s -> isvol r = true ->
  ld8 (mm s) (w64 (rg s b + d)) = v -> (I c (set_rg s r v) -> ok l (set_rg s r v) Q) -> ok (AMovRM r (Rm b d) :: l) s Q.
Proof.
  intros H Hr <- K. eapply ok_any; [|apply K].
  - cbn [meaning mem rm_reg rm_disp exec1 rd64 ea wr64]. rewrite Z.add_0_r. reflexivity.
  - apply I_set_rg; [exact H|exact Hr|apply ld8_range, (I_bytes _ _ H)].
Qed.
Lemma ok_store c s q d l m v Q : I c s -> - 2 ^ 20 <= d < 2 ^ 20 ->
  mm s = m -> rg s q = v -> (I c (set_mm s (st8 m (B + d) v)) -> ok l (set_mm s (st8 m (B + d) v)) Q) -> ok (AMovMR (Rm RBP d) q :: l) s Q.
Proof.
  intros H Hd <- <- K. eapply ok_any; [|apply K].
  - cbn [meaning mem rm_reg rm_disp exec1 rd64 ea wr64]. rewrite (i_bp _ _ _ _ _ H). rewrite ?HB. rewrite wB by exact Hd. reflexivity.
  - apply I_set_mm; [exact H|apply st8_bytes, (I_bytes _ _ H)].
Qed.
Lemma ok_stores c s q d l m v Q : I c s -> 0 <= c <= 2 ^ 19 + 2 ^ 12 -> 0 <= d < 2 ^ 20 ->
  mm s = m -> rg s q = v -> (I c (set_mm s (st8 m (B - fs - c + d) v)) -> ok l (set_mm s (st8 m (B - fs - c + d) v)) Q) -> ok (AMovMR (Rm RSP d) q :: l) s Q.
Proof.
  intros H Hc Hd <- <- K. eapply ok_any; [|apply K].
  - cbn [meaning mem rm_reg rm_disp exec1 rd64 ea wr64]. rewrite (i_sp _ _ _ _ _ H). rewrite ?HB. rewrite w64_small by (unfold W64 in *; lia). rewrite Z.add_0_r. reflexivity.
  - apply I_set_mm; [exact H|apply st8_bytes, (I_bytes _ _ H)].
Qed.
Lemma ok_storer c s b q d l a m v Q : I c s -> mm s = m -> w64 (rg s b + d) = a -> rg s q = v ->
  (I c (set_mm s (st8 m a v)) -> ok l (set_mm s (st8 m a v)) Q) -> ok (AMovMR (Rm b d) q :: l) s Q.
Proof.
  intros H <- <- <- K. eapply ok_any; [|apply K].
  - cbn [meaning mem rm_reg rm_disp exec1 rd64 ea wr64]. rewrite Z.add_0_r. reflexivity.
  - apply I_set_mm; [exact H|apply st8_bytes, (I_bytes _ _ H)].
Qed.
Lemma ok_zero c s d l m Q : I c s -> - 2 ^ 20 <= d < 2 ^ 20 -> mm s = m ->
  (I c (set_mm s (st8 m (B + d) 0)) -> ok l (set_mm s (st8 m (B + d) 0)) Q) -> ok (AMovMI (Rm RBP d) 0 :: l) s Q.
Proof.
  intros H Hd <- K. eapply ok_any; [|apply K].
  - cbn [meaning mem rm_reg rm_disp exec1 rd64 ea wr64]. rewrite (i_bp _ _ _ _ _ H). rewrite ?HB. rewrite wB by exact Hd. reflexivity.
  - apply I_set_mm; [exact H|apply st8_bytes, (I_bytes _ _ H)].
Qed.
Lemma ok_sub c s d l c' Q : I c s -> c + d = c' -> 0 <= c -> 0 <= d -> c' <= 2 ^ 19 + 2 ^ 12 ->
  (forall z n o, I c' (set_rg (set_fl s z n o) RSP (B - fs - c')) -> ok l (set_rg (set_fl s z n o) RSP (B - fs - c')) Q) ->
  ok (ASubRI RSP d :: l) s Q.
Proof.
  intros H <- Hc Hd Hcd K. eapply ok_any; [|apply K].
  - cbn [meaning exec1 rd64 alu wr64]. unfold flags. rewrite (i_sp _ _ _ _ _ H). rewrite ?HB. rewrite (w64_small d) by (unfold W64 in *; lia).
    rewrite (w64_small (B - fs - c - d)) by (unfold W64 in *; lia). replace (B - fs - c - d) with (B - fs - (c + d)) by lia. reflexivity.
  - eapply I_sp; [apply I_set_fl; exact H|reflexivity|lia].
Qed.
Lemma ok_add c s d l c' Q : I c s -> c - d = c' -> 0 <= d -> 0 <= c' -> c <= 2 ^ 19 + 2 ^ 12 ->
  (forall z n o, I c' (set_rg (set_fl s z n o) RSP (B - fs - c')) -> ok l (set_rg (set_fl s z n o) RSP (B - fs - c')) Q) ->
  ok (AAddRI RSP d :: l) s Q.
Proof.
  intros H <- Hc Hd Hcd K. eapply ok_any; [|apply K].
  - cbn [meaning exec1 rd64 alu wr64]. unfold flags. rewrite (i_sp _ _ _ _ _ H). rewrite ?HB. rewrite (w64_small d) by (unfold W64 in *; lia).
    rewrite (w64_small (B - fs - c + d)) by (unfold W64 in *; lia). replace (B - fs - c + d) with (B - fs - (c - d)) by lia. reflexivity.
  - eapply I_sp; [apply I_set_fl; exact H|reflexivity|lia].
Qed.
Lemma ok_movrr c s r q l v Q : I c s -> isvol r = true -> rg s q = v -> (I c (set_rg s r v) -> ok l (set_rg s r v) Q) -> ok (AMovRR r q :: l) s Q.
Proof. intros H Hr <- K. eapply ok_any; [reflexivity|]. apply K. apply I_set_rg; [exact H|exact Hr|apply (I_rg _ _ _ H)]. Qed.
Lemma ok_movru c s r v l Q : I c s -> isvol r = true -> uint64_ok v -> (I c (set_rg s r v) -> ok l (set_rg s r v) Q) -> ok (AMovRU r v :: l) s Q.
Proof. intros H Hr Hv K. eapply ok_any; [apply ex_movru; exact Hv|]. apply K. apply I_set_rg; [exact H|exact Hr|exact Hv]. Qed.
Lemma ok_movri c s r v l Q : I c s -> isvol r = true -> 0 <= v < 2 ^ 31 -> (I c (set_rg s r v) -> ok l (set_rg s r v) Q) -> ok (AMovRI r v :: l) s Q.
Proof.
  intros H Hr Hv K. eapply ok_any; [|apply K; apply I_set_rg; [exact H|exact Hr|unfold W64; lia]].
  cbn [meaning exec1]. unfold w32. rewrite !(Z.mod_small v) by lia. reflexivity.
Qed.
Lemma ok_lea c s r d l Q : I c s -> isvol r = true -> - 2 ^ 20 <= d < 2 ^ 20 -> (I c (set_rg s r (B + d)) -> ok l (set_rg s r (B + d)) Q) -> ok (ALea r (Rm RBP d) :: l) s Q.
Proof.
  intros H Hr Hd K. eapply ok_any; [|apply K].
  - cbn [meaning mem rm_reg rm_disp exec1 rd64 ea wr64]. rewrite (i_bp _ _ _ _ _ H). rewrite ?HB. rewrite wB by exact Hd. reflexivity.
  - apply I_set_rg; [exact H|exact Hr|unfold W64 in *; lia].
Qed.
Lemma ok_xor c s r l Q : I c s -> isvol r = true -> (forall z n o, I c (set_rg (set_fl s z n o) r 0) -> ok l (set_rg (set_fl s z n o) r 0) Q) -> ok (AXorRR r r :: l) s Q.
Proof.
  intros H Hr K. eapply ok_any; [cbn [meaning exec1 rd64 alu wr64]; rewrite Z.lxor_nilpotent; unfold flags; reflexivity|]. apply K.
  apply I_set_rg; [apply I_set_fl; exact H|exact Hr|unfold W64; lia].
Qed.
Lemma ok_movsd_load c s x d l v Q : I c s -> - 2 ^ 20 <= d < 2 ^ 20 ->
  ld8 (mm s) (B + d) = v -> (I c (set_xm s x v) -> ok l (set_xm s x v) Q) -> ok (AMovsdXM x (Rm RBP d) :: l) s Q.
Proof.
  intros H Hd <- K. eapply ok_any; [|apply K].
  - cbn [meaning mem rm_reg rm_disp exec1 ea]. rewrite (i_bp _ _ _ _ _ H). rewrite ?HB. rewrite wB by exact Hd. reflexivity.
  - apply I_set_xm; [exact H|apply ld8_range, (I_bytes _ _ H)].
Qed.
Lemma ok_movsd_loadr c s x b d l v Q : I c s ->
  ld8 (mm s) (w64 (rg s b + d)) = v -> (I c (set_xm s x v) -> ok l (set_xm s x v) Q) -> ok (AMovsdXM x (Rm b d) :: l) s Q.
Proof.
  intros H <- K. eapply ok_any; [|apply K].
  - cbn [meaning mem rm_reg rm_disp exec1 ea]. rewrite Z.add_0_r. reflexivity.
  - apply I_set_xm; [exact H|apply ld8_range, (I_bytes _ _ H)].
Qed.
Lemma ok_movsd_store c s x d l m v Q : I c s -> - 2 ^ 20 <= d < 2 ^ 20 ->
  mm s = m -> xm s x = v -> (I c (set_mm s (st8 m (B + d) v)) -> ok l (set_mm s (st8 m (B + d) v)) Q) -> ok (AMovsdMX (Rm RBP d) x :: l) s Q.
Proof.
  intros H Hd <- <- K. eapply ok_any; [|apply K].
  - cbn [meaning mem rm_reg rm_disp exec1 ea]. rewrite (i_bp _ _ _ _ _ H). rewrite ?HB. rewrite wB by exact Hd. reflexivity.
  - apply I_set_mm; [exact H|apply st8_bytes, (I_bytes _ _ H)].
Qed.
Lemma ok_test c s r q l v Q : I c s -> Z.land (rg s r) (rg s q) = v -> (I c (flags s v false) -> ok l (flags s v false) Q) -> ok (ATestRR r q :: l) s Q.
Proof. intros H <- K. eapply ok_any; [reflexivity|]. apply K. apply I_set_fl. exact H. Qed.
End Steps.
