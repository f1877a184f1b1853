(** Memory, blocks of instructions, calls and jumps. *)
From Coq Require Import List ZArith Bool Lia.
From Verif Require Import TrampModel Asm64Model Asm64Spec Asm64Proofs Mach64.
Import ListNotations.
Local Open Scope Z_scope.
Notation length := List.length.

Lemma W64_pos : 0 < W64. Proof. reflexivity. Qed.
Lemma w64_small x : 0 <= x < W64 -> w64 x = x.
Proof. intros H. apply Z.mod_small. exact H. Qed.
Lemma w64_range x : 0 <= w64 x < W64.
Proof. apply Z.mod_pos_bound. exact W64_pos. Qed.
Lemma w64_idem_r a b : w64 (a + w64 b) = w64 (a + b).
Proof. unfold w64. rewrite Zplus_mod_idemp_r. reflexivity. Qed.
Lemma w64_idem_l a b : w64 (w64 a + b) = w64 (a + b).
Proof. unfold w64. rewrite Zplus_mod_idemp_l. reflexivity. Qed.
Lemma w64_sub_r a b : w64 (a - w64 b) = w64 (a - b).
Proof. unfold w64. rewrite Zminus_mod_idemp_r. reflexivity. Qed.

(** ** Memory *)
Lemma upd_same {A} (f : Z -> A) k v : upd f k v k = v.
Proof. unfold upd. rewrite Z.eqb_refl. reflexivity. Qed.
Lemma upd_diff {A} (f : Z -> A) k v x : x <> k -> upd f k v x = f x.
Proof. intros H. unfold upd. destruct (Z.eqb_spec x k); [contradiction|reflexivity]. Qed.

Definition bytes_ok (m : Z -> Z) : Prop := forall x, 0 <= m x < 256.
Lemma ld_range m n : bytes_ok m -> forall a, 0 <= ld m a n < 256 ^ Z.of_nat n.
Proof.
  intros H. induction n as [|n IH]; intros a; [cbn; lia|]. cbn [ld].
  specialize (IH (a + 1)). pose proof (H (w64 a)).
  replace (Z.of_nat (S n)) with (Z.succ (Z.of_nat n)) by lia. rewrite Z.pow_succ_r by lia. lia.
Qed.
Lemma ld8_range m a : bytes_ok m -> 0 <= ld8 m a < W64.
Proof. intros H. exact (ld_range m 8 H a). Qed.
Lemma sto_bytes n : forall m a v, bytes_ok m -> bytes_ok (sto m a n v).
Proof.
  induction n as [|n IH]; intros m a v H; [exact H|]. cbn [sto]. apply IH.
  intros x. unfold upd. destruct (x =? w64 a); [|apply H]. apply Z.mod_pos_bound. lia.
Qed.
Lemma st8_bytes m a v : bytes_ok m -> bytes_ok (st8 m a v).
Proof. apply sto_bytes. Qed.
Lemma sto_out n : forall m a v x, 0 <= a -> a + Z.of_nat n <= W64 -> ~ (a <= x < a + Z.of_nat n) -> sto m a n v x = m x.
Proof.
  induction n as [|n IH]; intros m a v x Ha Hn Hx; [reflexivity|]. cbn [sto].
  rewrite IH by lia. apply upd_diff. rewrite w64_small by lia. lia.
Qed.
Lemma st8_out m a v x : 0 <= a -> a + 8 <= W64 -> ~ (a <= x < a + 8) -> st8 m a v x = m x.
Proof. intros. apply sto_out; assumption. Qed.
Lemma ld_ext n : forall m m' a, 0 <= a -> a + Z.of_nat n <= W64 -> (forall x, a <= x < a + Z.of_nat n -> m x = m' x) -> ld m a n = ld m' a n.
Proof.
  induction n as [|n IH]; intros m m' a Ha Hn H; [reflexivity|]. cbn [ld].
  rewrite w64_small by lia. rewrite (H a) by lia. rewrite (IH m m' (a + 1)); [reflexivity|lia|lia|].
  intros x Hx. apply H. lia.
Qed.
Lemma ld8_ext m m' a : 0 <= a -> a + 8 <= W64 -> (forall x, a <= x < a + 8 -> m x = m' x) -> ld8 m a = ld8 m' a.
Proof. intros. apply ld_ext; assumption. Qed.
Lemma ld_sto_same n : forall m a v, 0 <= a -> a + Z.of_nat n <= W64 -> 0 <= v < 256 ^ Z.of_nat n -> ld (sto m a n v) a n = v.
Proof.
  induction n as [|n IH]; intros m a v Ha Hn Hv.
  - cbn in *. lia.
  - replace (Z.of_nat (S n)) with (Z.succ (Z.of_nat n)) in * by lia. rewrite Z.pow_succ_r in Hv by lia.
    cbn [ld sto]. rewrite IH; [|lia|lia|].
    + rewrite w64_small by lia. rewrite sto_out by lia. rewrite upd_same.
      pose proof (Z.div_mod v 256 ltac:(lia)). lia.
    + split; [apply Z.div_pos; lia|]. apply Z.div_lt_upper_bound; lia.
Qed.
Lemma ld8_st8_same m a v : 0 <= a -> a + 8 <= W64 -> 0 <= v < W64 -> ld8 (st8 m a v) a = v.
Proof. intros. apply ld_sto_same; assumption. Qed.
Lemma ld8_st8_diff m a v b : 0 <= a -> a + 8 <= W64 -> 0 <= b -> b + 8 <= W64 -> (a + 8 <= b \/ b + 8 <= a) ->
  ld8 (st8 m a v) b = ld8 m b.
Proof.
  intros. apply ld8_ext; try assumption. intros x Hx. apply st8_out; lia.
Qed.

(** ** Positions *)
Definition off (l : list asm) : Z := Z.of_nat (length (emit_all l)).
Lemma emit_all_app l1 l2 : emit_all (l1 ++ l2) = emit_all l1 ++ emit_all l2.
Proof. apply flat_map_app. Qed.
Lemma off_app l1 l2 : off (l1 ++ l2) = off l1 + off l2.
Proof. unfold off. rewrite emit_all_app, app_length. lia. Qed.
Lemma off_nonneg l : 0 <= off l.
Proof. unfold off. lia. Qed.

Section Code.
Variables (base : Z) (env : nat -> Z -> st -> st).
Notation step := (step base env).
Notation reaches := (reaches base env).

Lemma reaches_trans code c1 c2 c3 : reaches code c1 c2 -> reaches code c2 c3 -> reaches code c1 c3.
Proof. induction 1 as [c|c c1' c2' H _ IH]; intros K; [exact K|]. eapply r_step; [exact H|]. apply IH. exact K. Qed.
Lemma reaches_one code c1 c2 : step code c1 = Some c2 -> reaches code c1 c2.
Proof. intros H. eapply r_step; [exact H|apply r_refl]. Qed.

(** the instruction behind [pre] *)
Lemma fetch_at pre a post : asm_ok a ->
  fetch (emit_all (pre ++ a :: post)) (off pre) = Some (meaning a, off (pre ++ [a])).
Proof.
  intros Ha. unfold fetch. pose proof (off_nonneg pre) as H0. destruct (Z.leb_spec 0 (off pre)); [|lia].
  unfold off. rewrite Nat2Z.id. rewrite emit_all_app. rewrite skipn_app, skipn_all, Nat.sub_diag. cbn [skipn app].
  replace (emit_all (a :: post)) with (emit a ++ emit_all post) by reflexivity.
  rewrite decode_emit by exact Ha. f_equal. f_equal.
  rewrite !app_length, emit_all_app, app_length. replace (emit_all [a]) with (emit a ++ []) by reflexivity.
  rewrite app_nil_r. lia.
Qed.

(** ** Straight-line blocks *)
Definition straight (a : asm) : bool :=
  match a with
  | ABreak | ACall _ | AJumpR _ | AJump _ | AJz _ | AJl _ | AJle _ | AJe _ | AJne _ | ARet => false
  | _ => true
  end.
Fixpoint xs (l : list asm) (s : st) : option st :=
  match l with [] => Some s | a :: l => match exec1 (meaning a) s with Some s => xs l s | None => None end end.
Lemma xs_app l1 l2 s : xs (l1 ++ l2) s = match xs l1 s with Some s1 => xs l2 s1 | None => None end.
Proof. revert s. induction l1 as [|a l1 IH]; intros s; [reflexivity|]. cbn [app xs]. destruct (exec1 (meaning a) s); [apply IH|reflexivity]. Qed.

Definition option_map' {A B} (f : A -> B) (o : option A) : option B := match o with Some x => Some (f x) | None => None end.
Lemma set_pc_pc s p q : set_pc (set_pc s p) q = set_pc s q.
Proof. reflexivity. Qed.
Lemma exec1_pc a s p : straight a = true -> exec1 (meaning a) (set_pc s p) = option_map' (fun x => set_pc x p) (exec1 (meaning a) s).
Proof.
  intros H. destruct a; cbn in H; try discriminate H; cbn [meaning]; try reflexivity.
  - destruct (imm <? 2 ^ 32); reflexivity.
  - unfold exec1. cbn [mem rd64 ea]. cbn [rg mm set_pc]. unfold holds. cbn [zf sf ovf set_pc]. destruct (negb (zf s)); reflexivity.
  - unfold exec1. cbn [mem rd64 ea]. cbn [rg mm set_pc]. unfold holds. cbn [zf sf ovf set_pc]. destruct (negb (zf s)); reflexivity.
  - unfold exec1. cbn [mem rd64 ea]. cbn [rg mm set_pc]. unfold holds. cbn [zf sf ovf set_pc]. destruct (negb (xorb (sf s) (ovf s))); reflexivity.
  - unfold exec1. cbn [mem rd64 ea]. cbn [rg mm set_pc]. unfold holds. cbn [zf sf ovf set_pc]. destruct (negb (xorb (sf s) (ovf s))); reflexivity.
  - unfold exec1. cbn [mem rd64 ea]. cbn [rg mm set_pc]. unfold holds. cbn [zf sf ovf set_pc]. destruct (negb (zf s) && negb (xorb (sf s) (ovf s))); reflexivity.
  - unfold exec1. cbn [mem rd64 ea]. cbn [rg mm set_pc]. unfold holds. cbn [zf sf ovf set_pc]. destruct (negb (zf s) && negb (xorb (sf s) (ovf s))); reflexivity.
Qed.
Lemma not_call a : straight a = true -> match meaning a with ICall _ => False | _ => True end.
Proof. destruct a; cbn [straight meaning]; intros H; try discriminate H; auto. destruct (imm <? 2 ^ 32); exact I. Qed.
Lemma step_other code s tr i p : fetch code (pc s) = Some (i, p) -> match i with ICall _ => False | _ => True end ->
  step code (s, tr) = match exec1 i (set_pc s p) with Some s' => Some (s', tr) | None => None end.
Proof. intros H K. cbn [Mach64.step]. rewrite H. destruct i; try reflexivity. destruct K. Qed.

Lemma run_block l : forall pre post s s' tr,
  Forall asm_ok l -> forallb straight l = true -> pc s = off pre -> xs l s = Some s' ->
  reaches (emit_all (pre ++ l ++ post)) (s, tr) (set_pc s' (off (pre ++ l)), tr).
Proof.
  induction l as [|a l IH]; intros pre post s s' tr Hok Hst Hpc Hx.
  - cbn in Hx. injection Hx as <-. rewrite app_nil_r. rewrite <- Hpc.
    replace (set_pc s (pc s)) with s by (destruct s; reflexivity). apply r_refl.
  - cbn [forallb] in Hst. apply andb_true_iff in Hst. destruct Hst as [Ha Hst].
    inversion Hok as [|a' l' Hoa Hol]; subst a' l'. cbn [xs] in Hx.
    destruct (exec1 (meaning a) s) as [s1|] eqn:E; [|discriminate Hx].
    eapply r_step.
    + rewrite (step_other _ s tr (meaning a) (off (pre ++ [a]))).
      * rewrite exec1_pc by exact Ha. rewrite E. reflexivity.
      * rewrite Hpc. cbn [app]. apply fetch_at. exact Hoa.
      * apply not_call. exact Ha.
    + replace (pre ++ (a :: l) ++ post) with ((pre ++ [a]) ++ l ++ post) by (rewrite <- app_assoc; reflexivity).
      replace (pre ++ a :: l) with ((pre ++ [a]) ++ l) by (rewrite <- app_assoc; reflexivity).
      assert (Hx' : xs l (set_pc s1 (off (pre ++ [a]))) = Some (set_pc s' (off (pre ++ [a])))).
      { clear - Hx Hst. revert s1 Hx Hst. generalize (off (pre ++ [a])) as p.
        induction l as [|b l IHl]; intros p s1 Hx Hst; cbn [xs] in *; [injection Hx as <-; reflexivity|].
        cbn [forallb] in Hst. apply andb_true_iff in Hst. destruct Hst as [Hb Hst].
        rewrite exec1_pc by exact Hb. destruct (exec1 (meaning b) s1) as [s2|]; [|discriminate Hx].
        cbn [option_map']. apply IHl; assumption. }
      pose proof (IH (pre ++ [a]) post (set_pc s1 (off (pre ++ [a]))) _ tr Hol Hst eq_refl Hx') as R.
      rewrite set_pc_pc in R. exact R.
Qed.

(** ** Calls *)
Definition call_in (s : st) (p : Z) : st := push s (w64 (base + p)).
Definition call_out (s : st) (s2 : st) (p : Z) : st := set_pc (set_rg s2 RSP (w64 (rg s RSP - 8 + 8))) p.
Lemma w64_pm x : w64 (w64 (x - 8) + 8) = w64 (x - 8 + 8).
Proof. apply w64_idem_l. Qed.
Lemma run_call r pre post s tr : reg_ok r -> pc s = off pre ->
  let p := off (pre ++ [ACall r]) in
  let s1 := call_in s p in
  let s2 := env (length tr) (rg s r) s1 in
  reaches (emit_all (pre ++ ACall r :: post)) (s, tr) (call_out s s2 p, tr ++ [Ev (rg s r) s1 s2]).
Proof.
  intros Hr Hpc p s1 s2. apply reaches_one. cbn [Mach64.step]. rewrite Hpc.
  rewrite fetch_at by exact Hr. cbn [meaning rd64]. unfold call_out. rewrite <- w64_pm. reflexivity.
Qed.

(** ** Jumps *)
Lemma run_jump d pre post s tr : int32_ok d -> pc s = off pre ->
  reaches (emit_all (pre ++ AJump d :: post)) (s, tr) (set_pc s (off (pre ++ [AJump d]) + d), tr).
Proof.
  intros Hd Hpc. apply reaches_one. rewrite (step_other _ s tr (IJmp d) (off (pre ++ [AJump d]))); [reflexivity| |exact I].
  rewrite Hpc. apply (fetch_at pre (AJump d) post). exact Hd.
Qed.
Definition cond_jump (a : asm) : option (cond * Z) :=
  match a with AJz d | AJe d => Some (CE, d) | AJne d => Some (CNE, d) | AJl d => Some (CL, d) | AJle d => Some (CLE, d) | _ => None end.
Lemma run_jcc a c d pre post s tr : cond_jump a = Some (c, d) -> int32_ok d -> pc s = off pre ->
  reaches (emit_all (pre ++ a :: post)) (s, tr)
    (set_pc s (if holds s c then off (pre ++ [a]) + d else off (pre ++ [a])), tr).
Proof.
  intros Ha Hd Hpc. apply reaches_one.
  assert (Hm : meaning a = IJcc c d /\ asm_ok a) by (destruct a; cbn in Ha; try discriminate Ha; injection Ha as <- <-; split; auto).
  destruct Hm as [Hm Hok].
  rewrite (step_other _ s tr (IJcc c d) (off (pre ++ [a]))); [| |exact I].
  - cbn [exec1]. unfold holds. cbn [set_pc zf sf ovf pc].
    assert (Q : forall x : bool, (if x then set_pc (set_pc s (off (pre ++ [a]))) (off (pre ++ [a]) + d) else set_pc s (off (pre ++ [a]))) =
      set_pc s (if x then off (pre ++ [a]) + d else off (pre ++ [a]))) by (intros []; reflexivity).
    destruct c; rewrite Q; reflexivity.
  - rewrite Hpc, <- Hm. apply fetch_at. exact Hok.
Qed.
Lemma ret_at pre post s : pc s = off pre -> at_ret (emit_all (pre ++ ARet :: post)) s.
Proof. intros H. unfold at_ret. rewrite H. exists (off (pre ++ [ARet])). apply (fetch_at pre ARet post). exact I. Qed.
End Code.

(** ** Comparisons *)
Lemma s64_inj a b : 0 <= a < W64 -> 0 <= b < W64 -> s64 a = s64 b -> a = b.
Proof. unfold s64, W64. intros Ha Hb. destruct (Z.ltb_spec a (2 ^ 63)), (Z.ltb_spec b (2 ^ 63)); lia. Qed.
Lemma cmp_lt s a b : 0 <= a < W64 -> 0 <= b < W64 ->
  let s' := flags s (w64 (a - b)) (negb (in_s64 (s64 a - s64 b))) in
  xorb (sf s') (ovf s') = (s64 a <? s64 b) /\ zf s' = (a =? b).
Proof.
  intros Ha Hb s'. subst s'. unfold flags. cbn [set_fl sf ovf zf]. unfold in_s64.
  assert (E : w64 (a - b) = if a <? b then a - b + W64 else a - b).
  { destruct (Z.ltb_spec a b).
    - unfold w64. rewrite <- (Z_mod_plus_full (a - b) 1 W64). rewrite Z.mod_small; lia.
    - apply w64_small. lia. }
  rewrite E. unfold s64, W64 in *.
  split.
  - destruct (Z.ltb_spec a b), (Z.ltb_spec a (2 ^ 63)), (Z.ltb_spec b (2 ^ 63));
      match goal with |- xorb (?l <=? ?x) (negb ((?y <=? ?z) && (?z <? ?u))) = (?p <? ?q) =>
        destruct (Z.leb_spec l x), (Z.leb_spec y z), (Z.ltb_spec z u), (Z.ltb_spec p q); cbn [xorb andb negb]; try reflexivity; lia end.
  - destruct (Z.ltb_spec a b), (Z.eqb_spec a b);
      match goal with |- (?x =? 0) = _ => destruct (Z.eqb_spec x 0) end; try reflexivity; lia.
Qed.
