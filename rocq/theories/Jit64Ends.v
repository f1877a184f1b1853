(** The beginning and the end of the hook function, and all of it. *)
From Coq Require Import List ZArith Bool Lia.
From Verif Require Import TrampModel ProtoModel GenModel Asm64Model Asm64Spec Asm64Proofs Mach64 Mach64Proofs Mach64Mem Jit64Model Jit64Spec Jit64Base Jit64PubProofs Jit64HookSpec Jit64HookList Jit64Run Jit64Frame Jit64Steps Jit64Blocks Jit64Loop Jit64Orig.
Import ListNotations.
Local Open Scope Z_scope.
Notation length := List.length.

Lemma match_void (rk : rkind) (P Q : Prop) : (rk = RVoid -> P) -> (rk <> RVoid -> Q) -> match rk with RVoid => P | _ => Q end.
Proof. destruct rk; intros H1 H2; [apply H1; reflexivity|apply H2; discriminate|apply H2; discriminate|apply H2; discriminate]. Qed.

Section Ends.
Variables (k : consts) (r : passinfo) (ps : list passinfo) (rk : rkind) (s0 : st) (B : Z).
Notation fs := (fs_of rk).
Notation pks := (map pk_of ps).
Variables (base : Z) (env : nat -> Z -> st -> st).
Hypothesis X : setting k r ps rk s0 B base env.
Let HB := x_sp _ _ _ _ _ _ _ _ X.
Let Hwf := x_wf _ _ _ _ _ _ _ _ X.
Let Hsp := x_range _ _ _ _ _ _ _ _ X.
Let Hlen := x_len _ _ _ _ _ _ _ _ X.
Let Hcl := x_cl _ _ _ _ _ _ _ _ X.
Let Hk := x_k _ _ _ _ _ _ _ _ X.
Let Hpar := x_par _ _ _ _ _ _ _ _ X.
Notation I := (Jit64Frame.I s0 fs B).
Notation J := (Jit64Blocks.J ps rk s0 B).
Notation R := (Jit64Blocks.R base env).
Notation Own := (own pks rk s0 (the_vars rk B)).
Notation Agree := (agree pks rk s0 (the_vars rk B)).
Notation Call := (call pks rk s0 (the_vars rk B) (B - fs)).
Notation Fixed := (fixed pks rk B).
Notation h := (iface_of k).
Notation stat := (status (the_vars rk B)).
Ltac kx := pose proof Hk as (? & ? & ? & ? & ? & ? & ? & ? & ? & ? & ? & ? & ? & ? & ?).
Ltac aok := clear Hcl Hpar; kx; rok.
Ltac basics := pose proof (depthge _ _ _ _ _ _ _ _ X) as HD; pose proof (Hfsr _ _ _ _ _ _ _ _ X) as HF; pose proof W64v as HW; pose proof (Hfacts _ _ _ _ _ _ _ _ X) as HG; pose proof (fs_c _ _ _ _ _ _ _ _ X) as HFC.

(** ** Saving the parameters *)
Lemma save_regs_aok l : forall i, Forall asm_ok (save_regs l i) /\ forallb straight (save_regs l i) = true.
Proof.
  induction l as [|p l IH]; intros i; cbn [save_regs]; [split; [constructor|reflexivity]|].
  destruct (Nat.ltb_spec i 4) as [L|L]; [|split; [constructor|reflexivity]]. destruct (IH (S i)) as [A1 A2]. split.
  - constructor; [|exact A1]. unfold home. destruct i as [|[|[|[|i]]]]; [| | | |lia]; destruct (is_float p); cbn [asm_ok preg nth]; unfold reg_ok, rm_ok, int32_ok; cbn [rm_reg rm_disp]; unfold RBP, RCX, RDX, R8, R9; repeat split; discriminate || lia.
  - cbn [forallb]. rewrite A2. destruct (is_float p); reflexivity.
Qed.
Lemma ok_save_regs c l : forall i s, (i <= 4)%nat -> I c s ->
  ok (save_regs l i) s (fun s' => I c s' /\ rg s' = rg s /\ xm s' = xm s /\
    (forall x, ~ (B + 8 + 8 * Z.of_nat i <= x < B + 40) -> mm s' x = mm s x) /\
    forall j p, nth_error l j = Some p -> (i + j < 4)%nat -> ld8 (mm s') (B + 8 + 8 * Z.of_nat (i + j)) = if is_float p then xm s (Z.of_nat (i + j)) else rg s (preg (i + j))).
Proof.
  basics. induction l as [|p l IH]; intros i s Hi HI; cbn [save_regs].
  - apply ok_nil. split; [exact HI|]. split; [reflexivity|]. split; [reflexivity|]. split; [reflexivity|]. intros [|j] q Hq; discriminate Hq.
  - destruct (Nat.ltb_spec i 4) as [L|L].
    2:{ apply ok_nil. split; [exact HI|]. split; [reflexivity|]. split; [reflexivity|]. split; [reflexivity|]. intros j q _ Hj. lia. }
    set (v := if is_float p then xm s (Z.of_nat i) else rg s (preg i)).
    assert (Rv : 0 <= v < W64) by (unfold v; destruct (is_float p); apply HI).
    assert (G : I c (set_mm s (st8 (mm s) (B + (Z.of_nat i * 8 + 8)) v)) -> ok (save_regs l (S i)) (set_mm s (st8 (mm s) (B + (Z.of_nat i * 8 + 8)) v)) (fun s' => I c s' /\ rg s' = rg s /\ xm s' = xm s /\
      (forall x, ~ (B + 8 + 8 * Z.of_nat i <= x < B + 40) -> mm s' x = mm s x) /\
      forall j q, nth_error (p :: l) j = Some q -> (i + j < 4)%nat -> ld8 (mm s') (B + 8 + 8 * Z.of_nat (i + j)) = if is_float q then xm s (Z.of_nat (i + j)) else rg s (preg (i + j)))).
    { intros HI1. destruct (IH (S i) _ ltac:(lia) HI1) as (s' & E & A1 & A2 & A3 & A4 & A5). revert A2 A3 A4 A5. sst. intros A2 A3 A4 A5.
      exists s'. split; [exact E|]. split; [exact A1|]. split; [exact A2|]. split; [exact A3|]. split.
      - intros x Hx. rewrite A4 by lia. apply st8_out; lia.
      - intros [|j] q Hq Hj.
        + inversion Hq. subst q. rewrite Nat.add_0_r.
          rewrite (ld8_ext (mm s') (st8 (mm s) (B + 8 + 8 * Z.of_nat i) v)).
          * rewrite ld8_st8_same by lia. reflexivity.
          * lia.
          * lia.
          * intros x Hx. rewrite A4 by lia. replace (B + (Z.of_nat i * 8 + 8)) with (B + 8 + 8 * Z.of_nat i) by lia. reflexivity.
        + rewrite Nat.add_succ_r. apply (A5 j q Hq). lia. }
    unfold home. unfold v in G. destruct (is_float p) eqn:F.
    + eapply ok_movsd_store; [exact Hsp|exact HI|lia|reflexivity|reflexivity|exact G].
    + eapply ok_store; [exact Hsp|exact HI|lia|reflexivity|reflexivity|exact G].
Qed.

Lemma prologue_eq : prologue r ps = [ASubRI RSP fs; AMovMR (Rm RSP (fs - 8)) RBP; ALea RBP (Rm RSP fs)] ++ [AMovMR (Rm RBP (-64)) RCX; AMovMR (Rm RBP 8) RCX]
  ++ (if 0 <? pn rk then [AMovMR (Rm RBP 16) RDX; AMovMR (Rm RBP (-80)) RDX] else [])
  ++ [AMovRI RAX (Z.of_nat (length ps)); AMovRI RAX (Z.of_nat (S (hidden rk))); AMovRU RAX (pi_size r)] ++ save_regs ps (S (hidden rk))
  ++ [AMovMI (Rm RBP (-24)) 0; AMovMI (Rm RBP (-40)) 0; AMovMI (Rm RBP (-32)) 0].
Proof.
  unfold prologue. rewrite (ret_class_frame _ _ Hcl), (first_reg_eq _ _ _ _ _ _ _ _ X), (ret_mem_eq _ _ _ _ _ _ _ _ X).
  assert (C : ctors r = []). { unfold ctors. destruct Hcl as ([E|[E _]] & _); rewrite E; [reflexivity|]. destruct (has _ _); reflexivity. }
  rewrite C. destruct (Z.ltb_spec 0 (pn rk)) as [Hp|Hp]; [|reflexivity].
  assert (V : v_memret_ptr r = -80). { unfold v_memret_ptr. rewrite (ret_class_size _ _ Hcl). unfold pn in Hp. destruct rk; try discriminate. reflexivity. }
  rewrite V. reflexivity.
Qed.

Lemma run_prologue : exists s, T base env [] (prologue r ps) (s0, []) (s, []) /\ I 0 s /\ J (ld8 (mm s) (B - 56)) (mm s) /\ Agree (initial s0 (the_vars rk B)) (mm s).
Proof.
  basics. pose proof Hwf as (W1 & W2 & W3). pose proof (slots_ge pks rk (Hps _ _ _ _ _ _ _ _ X) (Hn _ _ _ _ _ _ _ _ X)) as SG. pose proof (Hps _ _ _ _ _ _ _ _ X) as HP.
  destruct (save_regs_aok ps (S (hidden rk))) as [SA SB].
  assert (P : R [] (prologue r ps) s0 [] (fun s tr => tr = [] /\ I 0 s /\ J (ld8 (mm s) (B - 56)) (mm s) /\ Agree (initial s0 (the_vars rk B)) (mm s))).
  2:{ destruct P as (s & tr & HT & -> & H). exists s. auto. }
  rewrite prologue_eq. apply R_block.
  { rewrite !Forall_app. assert (U : uint64_ok (pi_size r)) by apply Hcl. split; [rok|]. split; [rok|]. split; [destruct (0 <? pn rk); rok|]. split; [clear Hcl; rok|]. split; [exact SA|rok]. }
  { rewrite !forallb_app, SB. destruct (0 <? pn rk); reflexivity. }
  cbn [app].
  eapply ok_any; [cbn [meaning exec1 rd64 alu wr64]; unfold flags; rewrite HB, (w64_small fs), (w64_small (B - fs)) by lia; reflexivity|].
  eapply ok_any; [cbn [meaning mem rm_reg rm_disp exec1 rd64 ea wr64]; sst; uregs; replace (B - fs + 0 + (fs - 8)) with (B - 8) by lia; rewrite (w64_small (B - 8)) by lia; reflexivity|].
  eapply ok_any; [cbn [meaning mem rm_reg rm_disp exec1 ea]; sst; uregs; replace (B - fs + 0 + fs) with B by lia; rewrite (w64_small B) by lia; reflexivity|].
  set (s1 := set_rg _ RBP _).
  assert (I1 : I 0 s1).
  { constructor; unfold s1; sst; uregs.
    - lia.
    - reflexivity.
    - intros q Hq. cbn [In] in Hq. destruct Hq as [<-|[<-|[<-|[<-|[<-|[<-|[<-|[]]]]]]]]; uregs; reflexivity.
    - split; [|split]; sst; [|exact W2|apply st8_bytes; exact W3]. intros q. unfold upd. destruct (q =? RBP); [lia|]. destruct (q =? RSP); [lia|apply W1]. }
  assert (M1 : mm s1 = st8 (mm s0) (B - 8) (rg s0 RBP)) by reflexivity.
  assert (G1 : forall q, q <> RSP -> q <> RBP -> rg s1 q = rg s0 q) by (intros q H1 H2; unfold s1; sst; rewrite !upd_diff by assumption; reflexivity).
  assert (X1 : xm s1 = xm s0) by reflexivity.
  assert (Rc : rg s1 RCX = rg s0 RCX) by (apply G1; discriminate). clearbody s1.
  eapply ok_store; [exact Hsp|exact I1|lia|exact M1|exact Rc|]. nb. intros I2.
  eapply ok_store; [exact Hsp|exact I2|lia|reflexivity|sst; exact Rc|]. intros I3.
  assert (U : uint64_ok (pi_size r)) by apply Hcl.
  assert (Rb : 0 <= rg s0 RBP < W64) by apply W1. assert (Rcx : 0 <= rg s0 RCX < W64) by apply W1. assert (Rdx : 0 <= rg s0 RDX < W64) by apply W1.
  set (m2 := st8 (st8 (st8 (mm s0) (B - 8) (rg s0 RBP)) (B - 64) (rg s0 RCX)) (B + 8) (rg s0 RCX)) in *.
  set (md := if 0 <? pn rk then st8 (st8 m2 (B + 16) (rg s0 RDX)) (B - 80) (rg s0 RDX) else m2).
  assert (Mo : forall x, B - 64 <= x < B - 56 \/ B - 8 <= x < B + 16 -> md x = m2 x).
  { intros x Hx. unfold md. destruct (0 <? pn rk); [|reflexivity]. rewrite !st8_out by lia. reflexivity. }
  assert (Mf : forall x, ~ Fixed x -> md x = mm s0 x).
  { intros x Hx. unfold fixed in Hx. unfold md, m2. destruct (Z.ltb_spec 0 (pn rk)); rewrite !st8_out by lia; reflexivity. }
  assert (Ms : forall x, B + 40 <= x -> md x = mm s0 x).
  { intros x Hx. unfold md, m2. destruct (0 <? pn rk); rewrite !st8_out by lia; reflexivity. }
  assert (Mm : 0 < pn rk -> ld8 md (B - 80) = rg s0 RDX).
  { intros Hp. unfold md. destruct (Z.ltb_spec 0 (pn rk)); [|lia]. apply ld8_st8_same; lia. }
  assert (Mid : forall s2, I 0 s2 -> mm s2 = md -> (forall q, q <> RAX -> q <> RSP -> q <> RBP -> rg s2 q = rg s0 q) -> xm s2 = xm s0 ->
     ok ([AMovRI RAX (Z.of_nat (length ps)); AMovRI RAX (Z.of_nat (S (hidden rk))); AMovRU RAX (pi_size r)] ++ save_regs ps (S (hidden rk))
       ++ [AMovMI (Rm RBP (-24)) 0; AMovMI (Rm RBP (-40)) 0; AMovMI (Rm RBP (-32)) 0]) s2
       (fun s => ([] : list event) = [] /\ I 0 s /\ J (ld8 (mm s) (B - 56)) (mm s) /\ Agree (initial s0 (the_vars rk B)) (mm s))).
  2:{ apply ok_app. unfold md in Mid. destruct (0 <? pn rk).
      - eapply ok_store; [exact Hsp|exact I3|lia|reflexivity|sst; apply G1; discriminate|]. intros I4.
        eapply ok_store; [exact Hsp|exact I4|lia|reflexivity|sst; apply G1; discriminate|]. nb. intros I5. apply ok_nil.
        apply Mid; [exact I5|reflexivity|intros q _; sst; apply G1|sst; exact X1].
      - apply ok_nil. apply Mid; [exact I3|reflexivity|intros q _; sst; apply G1|sst; exact X1]. }
  clear I1 I2 I3 M1 G1 X1 Rc s1. clearbody md. intros s1 I1 M1 G1 X1. cbn [app].
  go. go. go. apply ok_app.
  match goal with |- ok _ ?t _ => set (s2 := t) in * end.
  assert (M2 : mm s2 = md) by (unfold s2; sst; exact M1).
  assert (G2 : forall q, q <> RAX -> q <> RSP -> q <> RBP -> rg s2 q = rg s0 q) by (intros q H4 H5 H6; unfold s2; sst; rewrite !upd_diff by assumption; apply G1; assumption).
  assert (X2 : xm s2 = xm s0) by (unfold s2; sst; exact X1).
  assert (I4 : I 0 s2) by assumption. clearbody s2.
  destruct (ok_save_regs 0 ps (S (hidden rk)) s2 ltac:(lia) I4) as (s3 & E3 & I5 & G3 & X3 & Out3 & Home3). exists s3. split; [exact E3|]. clear E3.
  go. go. go. apply ok_nil. nb. split; [reflexivity|]. split; [assumption|]. sst.
  assert (Ou : forall x, ~ Fixed x -> mm s3 x = mm s0 x).
  { intros x Hx. rewrite <- Mf by exact Hx. rewrite <- M2. apply Out3. unfold fixed in Hx. lia. }
  assert (Out4 : forall x, B - 64 <= x < B - 56 \/ B - 8 <= x < B + 16 -> mm s3 x = m2 x).
  { intros x Hx. rewrite Out3 by lia. rewrite M2. apply Mo, Hx. }
  split.
  - constructor.
    + rewrite !ld8_st8_diff by lia. rewrite (ld8_ext (mm s3) m2 (B - 8)); [|lia|lia|intros x Hx; apply Out4; lia]. unfold m2. rewrite !ld8_st8_diff by lia. apply ld8_st8_same; lia.
    + rewrite !ld8_st8_diff by lia. rewrite (ld8_ext (mm s3) m2 (B - 64)); [|lia|lia|intros x Hx; apply Out4; lia]. unfold m2. rewrite ld8_st8_diff by lia. change (arg s0 0) with (rg s0 RCX). apply ld8_st8_same; lia.
    + reflexivity.
    + intros x Hx. destruct Hx as [Hx|[Hx|Hx]].
      * rewrite (st8_out _ (B - 32)) by lia. rewrite st8_in by lia. rewrite Z.div_0_l by (apply Z.pow_nonzero; lia). reflexivity.
      * rewrite st8_in by lia. rewrite Z.div_0_l by (apply Z.pow_nonzero; lia). reflexivity.
      * rewrite (st8_out _ (B - 32)), (st8_out _ (B - 40)) by lia. rewrite st8_in by lia. rewrite Z.div_0_l by (apply Z.pow_nonzero; lia). reflexivity.
    + intros i p Hi. pose proof (nth_lt _ _ _ Hi) as Li. rewrite !ld8_st8_diff by lia.
      destruct (nth_error ps i) as [q|] eqn:Eq. 2:{ rewrite nth_error_map, Eq in Hi. discriminate Hi. }
      rewrite nth_error_map, Eq in Hi. inversion Hi. subst p. cbn [pk_of pk_float].
      destruct (Nat.ltb_spec (S (hidden rk + i)) 4) as [L4|L4].
      * pose proof (Home3 i q Eq L4) as Hh. cbn [Nat.add] in Hh. rewrite Hh.
        unfold arg, farg. destruct (Nat.ltb_spec (S (hidden rk + i)) 4); [|lia]. rewrite X2. destruct (is_float q); [reflexivity|].
        assert (PO : forall j, (S j < 4)%nat -> preg (S j) <> RAX /\ preg (S j) <> RSP /\ preg (S j) <> RBP) by (intros [|[|[|j]]] Hj; [| | |lia]; repeat split; discriminate).
        destruct (PO _ L4) as (PO1 & PO2 & PO3). rewrite G2 by assumption. reflexivity.
      * rewrite (ld8_ext (mm s3) (mm s0)); [|lia|lia|].
        -- unfold arg, farg. destruct (Nat.ltb_spec (S (hidden rk + i)) 4); [lia|]. rewrite HB. destruct (is_float q); reflexivity.
        -- intros x Hx. rewrite Out3 by lia. rewrite M2. apply Ms. lia.
    + intros Hp. rewrite !ld8_st8_diff by lia. rewrite (ld8_ext (mm s3) md); [exact (Mm Hp)|lia|lia|]. intros x Hx. rewrite Out3 by lia. rewrite M2. reflexivity.
    + intros x Hx. rewrite !st8_out by lia. rewrite Out4 by lia. unfold m2. rewrite !st8_out by lia. reflexivity.
  - unfold initial. cbn [the_vars a_status a_cur a_prev]. unfold IGNORED.
    eapply small_agree; [exact X| |apply small32|reflexivity]. eapply small_agree; [exact X| |apply small40|reflexivity].
    eapply small_agree; [exact X| |apply small24|reflexivity]. intros x Hx. apply Ou. intros C. apply Hx, (ownfixed _ _ _ _ _ _ _ _ X), C.
Qed.

(** ** SetupHookLoop *)
Lemma J_new_ctx c m v : J c m -> 0 <= v < W64 -> J v (st8 m (B - 56) v).
Proof.
  intros [j1 j2 j3 j4 j5 j7 j6] Hv. basics. pose proof (Hps _ _ _ _ _ _ _ _ X) as HP. constructor.
  - rewrite ld8_st8_diff by lia. exact j1.
  - rewrite ld8_st8_diff by lia. exact j2.
  - apply ld8_st8_same; lia.
  - intros x Hx. rewrite st8_out by lia. apply j4, Hx.
  - intros i p Hi. pose proof (nth_lt _ _ _ Hi). rewrite ld8_st8_diff by lia. apply j5, Hi.
  - intros Hm. rewrite ld8_st8_diff by lia. apply j7, Hm.
  - intros x Hx. rewrite st8_out by lia. apply j6, Hx.
Qed.
Lemma w64_add a b : w64 (a + w64 b) = w64 (a + b).
Proof. unfold w64. apply Zplus_mod_idemp_r. Qed.
Lemma below_agree m a v : B - fs - 88 <= a -> a + 8 <= B - fs -> Agree m (st8 m a v).
Proof. basics. intros H1 H2. apply agree_own; [lia|lia|]. intros x Hx. apply (ownbelow _ _ _ _ _ _ _ _ X). lia. Qed.
Lemma below_J c m a v : J c m -> B - fs - 88 <= a -> a + 8 <= B - fs -> J c (st8 m a v).
Proof.
  basics. intros HJ H1 H2. eapply J_kept; [exact X|exact HJ|]. apply kept_st8; [lia|lia|]. intros x Hx C. destruct (ownfixed _ _ _ _ _ _ _ _ X x C). lia.
Qed.

Definition setup_args (k : consts) : list asm := [ASubRI RSP 88; AMovRU RCX (k_sh k); AMovRU RDX (k_phi k); AMovRM RDX (Rm RDX 0);
   AMovRM R8 (Rm RBP (-64)); AMovRM R8 (Rm R8 (k_offs k)); AAddRI R8 (8 * k_idx k); AMovRM R9 (Rm RBP (-64))].
Lemma ok_setup_args s c0 (Q : st -> Prop) : I 0 s -> J c0 (mm s) ->
  (forall s', I 88 s' -> mm s' = mm s -> rg s' RCX = k_sh k -> rg s' RDX = ld8 (mm s) (k_phi k) ->
     rg s' R8 = w64 (ld8 (mm s) (w64 (arg s0 0 + k_offs k)) + 8 * k_idx k) -> rg s' R9 = arg s0 0 -> Q s') -> ok (setup_args k) s Q.
Proof.
  intros HI HJ K. basics. pose proof (j_this _ _ _ _ _ _ HJ) as Et. pose proof (fs_c _ _ _ _ _ _ _ _ X) as FS.
  assert (U1 : uint64_ok (k_sh k)) by (kx; assumption). assert (U2 : uint64_ok (k_phi k)) by (kx; assumption).
  assert (E0 : w64 (k_phi k + 0) = k_phi k) by (apply w0; exact U2).
  unfold setup_args. go. go. go. go. go. go.
  eapply ok_any; [cbn [meaning exec1 rd64 alu wr64]; unfold flags; sst; uregs; reflexivity|].
  rewrite w64_add. match goal with |- ok _ (set_rg ?t R8 ?v) _ => assert (IH : I 88 (set_rg t R8 v)) by (apply I_set_rg; [apply I_set_fl; assumption|reflexivity|apply w64_range]) end.
  go. apply ok_nil. apply K; sst; uregs; try reflexivity. assumption.
Qed.
(** the addresses of variables on the stack *)
Definition put_vars (l : list (Z * Z)) : list asm := flat_map (fun p => [ALea RAX (Rm RBP (fst p)); AMovMR (Rm RSP (snd p)) RAX]) l.
Fixpoint put_mem (l : list (Z * Z)) (m : Z -> Z) : Z -> Z :=
  match l with [] => m | (d, e) :: l => put_mem l (st8 m (B - fs - 88 + e) (B + d)) end.
Lemma ok_put_vars l : forall s (Q : st -> Prop), I 88 s -> Forall (fun p => - 2 ^ 19 <= fst p < 0 /\ 0 <= snd p <= 80) l ->
  (forall s', I 88 s' -> mm s' = put_mem l (mm s) -> (forall q, q <> RAX -> rg s' q = rg s q) -> Q s') -> ok (put_vars l) s Q.
Proof.
  basics. induction l as [|[d e] l IH]; intros s Q HI HF2 K; cbn [put_vars flat_map].
  - apply ok_nil. apply K; auto.
  - inversion HF2 as [|x y H1 H2]. cbn [fst snd] in *. cbn [app]. go.
    eapply ok_stores; [exact Hsp|exact HF|eassumption|lia|lia|reflexivity|sst; apply upd_same|]. sst. intros HI2.
    apply IH; [exact HI2|exact H2|]. intros s' I' M' G'. apply K; [exact I'|exact M'|]. intros q Hq. rewrite G' by exact Hq. sst. apply upd_diff. exact Hq.
Qed.
Lemma R_setup pre s c0 (Q : st -> list event -> Prop) : I 0 s -> J c0 (mm s) -> Agree (initial s0 (the_vars rk B)) (mm s) ->
  (forall e s', setup h pks rk s0 (the_vars rk B) (B - fs) e -> I 0 s' -> J (rax e) (mm s') -> Agree (mm (e_out e)) (mm s') -> Q s' [e]) ->
  R pre (CallSetupHookLoop k r) s [] Q.
Proof.
  intros HI HJ HA K. basics. pose proof (j_this _ _ _ _ _ _ HJ) as Et. pose proof (fs_c _ _ _ _ _ _ _ _ X) as FS.
  assert (U3 : uint64_ok (k_setup k)) by (kx; assumption).
  (* the call, with the arguments in place *)
  assert (G : forall s3 pre', I 88 s3 -> Agree (mm s) (mm s3) -> J c0 (mm s3) -> rg s3 RCX = k_sh k -> rg s3 RDX = ld8 (mm s) (k_phi k) ->
     rg s3 R8 = w64 (ld8 (mm s) (w64 (arg s0 0 + k_offs k)) + 8 * k_idx k) -> rg s3 R9 = arg s0 0 ->
     ld8 (mm s3) (B - fs - 88 + 32) = B - 16 -> ld8 (mm s3) (B - fs - 88 + 40) = B - 24 -> ld8 (mm s3) (B - fs - 88 + 48) = B - 32 -> ld8 (mm s3) (B - fs - 88 + 56) = B - 40 ->
     match rk with RVoid => ld8 (mm s3) (B - fs - 88 + 64) = 0 /\ ld8 (mm s3) (B - fs - 88 + 72) = 0
       | _ => ld8 (mm s3) (B - fs - 88 + 64) = B - 80 - area rk /\ ld8 (mm s3) (B - fs - 88 + 72) = B - 80 - 2 * area rk end ->
     R pre' [AMovRU RAX (k_setup k); ACall RAX; AMovMR (Rm RBP (-56)) RAX; AAddRI RSP 88] s3 [] Q).
  { intros s3 pre' I3 A3 J3 E1 E2 E3 E4 E5 E6 E7 E8 E9.
    change ([?a; ?b; ?c; ?d]) with ([a] ++ [b] ++ [c; d]). apply R_app, R_block; [aok|reflexivity|]. go. go. apply R_app.
    eapply R_call; [exact X|split; [discriminate|reflexivity]|eassumption|lia|reflexivity|lia|]. sst. uregs. intros e s' C.
    destruct (after_called _ _ _ _ _ _ _ _ X _ _ _ _ _ c0 C J3) as (J' & A' & I').
    pose proof (cl_rax _ _ _ _ _ _ _ _ _ _ C) as Er. pose proof (I_rg _ _ _ _ _ RAX I') as Rr. rewrite Er in Rr.
    apply R_block; [rok|reflexivity|]. go. go. go. apply K.
    - split; [apply (cl_aligned _ _ _ _ _ _ _ _ _ _ C)|]. split; [rewrite (cl_rsp _ _ _ _ _ _ _ _ _ _ C); cbn; lia|]. exists (mm s). split; [exact HA|]. split; [eapply agree_trans; [exact A3|apply (cl_agree _ _ _ _ _ _ _ _ _ _ C)]|].
      cbn [the_vars a_orig a_status a_prev a_cur a_oret a_over iface_of c_setup c_sh c_phi c_offs c_idx].
      split; [apply (cl_target _ _ _ _ _ _ _ _ _ _ C)|].
      split; [rewrite (cl_reg _ _ _ _ _ _ _ _ _ _ C) by lia; exact E1|].
      split; [rewrite (cl_reg _ _ _ _ _ _ _ _ _ _ C) by lia; exact E2|].
      split; [rewrite (cl_reg _ _ _ _ _ _ _ _ _ _ C) by lia; exact E3|].
      split; [rewrite (cl_reg _ _ _ _ _ _ _ _ _ _ C) by lia; exact E4|].
      split; [rewrite (cl_stk _ _ _ _ _ _ _ _ _ _ C) by lia; exact E5|].
      split; [rewrite (cl_stk _ _ _ _ _ _ _ _ _ _ C) by lia; exact E6|].
      split; [rewrite (cl_stk _ _ _ _ _ _ _ _ _ _ C) by lia; exact E7|].
      split; [rewrite (cl_stk _ _ _ _ _ _ _ _ _ _ C) by lia; exact E8|].
      destruct rk; destruct E9 as [E9 E10]; (split; [rewrite (cl_stk _ _ _ _ _ _ _ _ _ _ C) by lia; exact E9|rewrite (cl_stk _ _ _ _ _ _ _ _ _ _ C) by lia; exact E10]).
    - assumption.
    - sst. nb. eapply J_new_ctx; [exact J'|exact Rr].
    - sst. nb. eapply agree_trans; [exact A'|]. apply agree_own; [lia|lia|]. intros x Hx. apply (ownfixed _ _ _ _ _ _ _ _ X). unfold fixed. lia. }
  pose proof (slots_ge pks rk (Hps _ _ _ _ _ _ _ _ X) (Hn _ _ _ _ _ _ _ _ X)) as SG.
  destruct (rkind_eq_void rk) as [Hv|Hv].
  - assert (El : CallSetupHookLoop k r = (setup_args k ++ put_vars [(-16, 32); (-24, 40); (-32, 48); (-40, 56)] ++ [AXorRR RAX RAX; AMovMR (Rm RSP 64) RAX; AMovMR (Rm RSP 72) RAX])
      ++ [AMovRU RAX (k_setup k); ACall RAX; AMovMR (Rm RBP (-56)) RAX; AAddRI RSP 88]).
    { unfold CallSetupHookLoop. rewrite (ret_class_size _ _ Hcl), Hv. reflexivity. }
    rewrite El. apply R_app, R_block; [unfold setup_args; cbn [put_vars flat_map app fst snd]; aok|reflexivity|].
    apply ok_app. eapply ok_setup_args; [exact HI|exact HJ|]. intros s1 I1 M1 C1 D1 E1 N1. apply ok_app.
    apply ok_put_vars; [exact I1|repeat (constructor; [cbn [fst snd]; lia|]); constructor|]. cbn [put_mem]. intros s2 I2 M2 G2.
    go. go. go. apply ok_nil.
    match goal with |- R _ _ ?t _ _ => set (s3 := t) in * end.
    assert (M3 : mm s3 = st8 (st8 (mm s2) (B - fs - 88 + 64) 0) (B - fs - 88 + 72) 0) by reflexivity.
    assert (G3 : forall q, isvol q = true -> q <> RAX -> rg s3 q = rg s1 q).
    { intros q Hq Hq2. unfold s3. sst. rewrite upd_diff by exact Hq2. apply G2. exact Hq2. }
    assert (I3 : I 88 s3) by assumption. clearbody s3. rewrite M2, M1 in M3. nb. revert M3. nb. intros M3.
    apply G.
    + exact I3.
    + rewrite M3. repeat (eapply agree_trans; [|apply below_agree; lia]). apply agree_refl.
    + rewrite M3. repeat (apply below_J; [|lia|lia]). exact HJ.
    + rewrite G3 by (reflexivity || discriminate). exact C1.
    + rewrite G3 by (reflexivity || discriminate). exact D1.
    + rewrite G3 by (reflexivity || discriminate). exact E1.
    + rewrite G3 by (reflexivity || discriminate). exact N1.
    + rewrite M3. repeat (rewrite ld8_st8_diff by lia). apply ld8_st8_same; lia.
    + rewrite M3. repeat (rewrite ld8_st8_diff by lia). apply ld8_st8_same; lia.
    + rewrite M3. repeat (rewrite ld8_st8_diff by lia). apply ld8_st8_same; lia.
    + rewrite M3. repeat (rewrite ld8_st8_diff by lia). apply ld8_st8_same; lia.
    + apply match_void; [|contradiction]. intros _. rewrite M3. split; repeat (rewrite ld8_st8_diff by lia); apply ld8_st8_same; lia.
  - destruct (vars_nonvoid _ _ Hcl Hv) as (_ & Vo & Vv & _).
    assert (El : CallSetupHookLoop k r = (setup_args k ++ put_vars [(-16, 32); (-24, 40); (-32, 48); (-40, 56); (-80 - area rk, 64); (-80 - 2 * area rk, 72)])
      ++ [AMovRU RAX (k_setup k); ACall RAX; AMovMR (Rm RBP (-56)) RAX; AAddRI RSP 88]).
    { unfold CallSetupHookLoop. rewrite Vo, Vv. replace (pi_size r =? 0) with false; [reflexivity|]. rewrite (ret_class_size _ _ Hcl). destruct rk; [contradiction|reflexivity|reflexivity|reflexivity]. }
    rewrite El. apply R_app, R_block; [unfold setup_args; cbn [put_vars flat_map app fst snd]; aok|reflexivity|].
    apply ok_app. eapply ok_setup_args; [exact HI|exact HJ|]. intros s1 I1 M1 C1 D1 E1 N1.
    apply ok_put_vars; [exact I1|repeat (constructor; [cbn [fst snd]; lia|]); constructor|]. cbn [put_mem]. intros s3 I3 M3 G3.
    rewrite M1 in M3. replace (B + (-80 - area rk)) with (B - 80 - area rk) in M3 by lia. replace (B + (-80 - 2 * area rk)) with (B - 80 - 2 * area rk) in M3 by lia. revert M3. nb. intros M3.
    apply G.
    + exact I3.
    + rewrite M3. repeat (eapply agree_trans; [|apply below_agree; lia]). apply agree_refl.
    + rewrite M3. repeat (apply below_J; [|lia|lia]). exact HJ.
    + rewrite G3 by discriminate. exact C1.
    + rewrite G3 by discriminate. exact D1.
    + rewrite G3 by discriminate. exact E1.
    + rewrite G3 by discriminate. exact N1.
    + rewrite M3. repeat (rewrite ld8_st8_diff by lia). apply ld8_st8_same; lia.
    + rewrite M3. repeat (rewrite ld8_st8_diff by lia). apply ld8_st8_same; lia.
    + rewrite M3. repeat (rewrite ld8_st8_diff by lia). apply ld8_st8_same; lia.
    + rewrite M3. repeat (rewrite ld8_st8_diff by lia). apply ld8_st8_same; lia.
    + apply match_void; [contradiction|]. intros _. rewrite M3. split; repeat (rewrite ld8_st8_diff by lia); apply ld8_st8_same; lia.
Qed.
End Ends.
