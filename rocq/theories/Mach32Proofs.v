(** Memory, and running the instructions of a list one after the other. *)
From Coq Require Import List ZArith Bool Lia.
From Verif Require Import TrampModel Asm32Model Asm32Spec Asm32Proofs Mach32.
Import ListNotations.
Local Open Scope Z_scope.
Notation length := List.length.

Lemma W32_pos : 0 < W32. Proof. reflexivity. Qed.
Lemma w32_small x : 0 <= x < W32 -> w32 x = x.
Proof. intros H. apply Z.mod_small. exact H. Qed.
Lemma w32_range x : 0 <= w32 x < W32.
Proof. apply Z.mod_pos_bound. exact W32_pos. Qed.
Lemma w32_idem_r a b : w32 (a + w32 b) = w32 (a + b).
Proof. unfold w32. rewrite Zplus_mod_idemp_r. reflexivity. Qed.
Lemma w32_idem_l a b : w32 (w32 a + b) = w32 (a + b).
Proof. unfold w32. rewrite Zplus_mod_idemp_l. reflexivity. Qed.

(** ** Memory *)
Lemma upd_same {A} (f : Z -> A) k v : upd f k v k = v.
Proof. unfold upd. rewrite Z.eqb_refl. reflexivity. Qed.
Lemma upd_diff {A} (f : Z -> A) k v x : x <> k -> upd f k v x = f x.
Proof. intros H. unfold upd. destruct (Z.eqb_spec x k); [contradiction|reflexivity]. Qed.

Definition bytes_ok (m : Z -> Z) : Prop := forall x, 0 <= m x < 256.
Lemma ld_range m n : bytes_ok m -> forall a, 0 <= ld m a n < 256 ^ Z.of_nat n.
Proof.
  intros H. induction n as [|n IH]; intros a; [cbn; lia|]. cbn [ld].
  specialize (IH (a + 1)). pose proof (H (w32 a)).
  replace (Z.of_nat (S n)) with (Z.succ (Z.of_nat n)) by lia. rewrite Z.pow_succ_r by lia. lia.
Qed.
Lemma ld4_range m a : bytes_ok m -> 0 <= ld4 m a < W32.
Proof. intros H. exact (ld_range m 4 H a). Qed.
Lemma sto_bytes n : forall m a v, bytes_ok m -> bytes_ok (sto m a n v).
Proof.
  induction n as [|n IH]; intros m a v H; [exact H|]. cbn [sto]. apply IH.
  intros x. unfold upd. destruct (x =? w32 a); [|apply H]. apply Z.mod_pos_bound. lia.
Qed.
Lemma sto_out n : forall m a v x, 0 <= a -> a + Z.of_nat n <= W32 -> ~ (a <= x < a + Z.of_nat n) -> sto m a n v x = m x.
Proof.
  induction n as [|n IH]; intros m a v x Ha Hn Hx; [reflexivity|]. cbn [sto].
  rewrite IH by lia. apply upd_diff. rewrite w32_small by lia. lia.
Qed.
Lemma ld_ext n : forall m m' a, 0 <= a -> a + Z.of_nat n <= W32 -> (forall x, a <= x < a + Z.of_nat n -> m x = m' x) -> ld m a n = ld m' a n.
Proof.
  induction n as [|n IH]; intros m m' a Ha Hn H; [reflexivity|]. cbn [ld].
  rewrite w32_small by lia. rewrite (H a) by lia. rewrite (IH m m' (a + 1)); [reflexivity|lia|lia|].
  intros x Hx. apply H. lia.
Qed.
Lemma ld_sto_mod n : forall m a v, 0 <= a -> a + Z.of_nat n <= W32 -> ld (sto m a n v) a n = v mod 256 ^ Z.of_nat n.
Proof.
  induction n as [|n IH]; intros m a v Ha Hn.
  - cbn. rewrite Z.mod_1_r. reflexivity.
  - cbn [ld sto]. rewrite IH by lia. rewrite w32_small by lia. rewrite sto_out by lia. rewrite upd_same.
    replace (Z.of_nat (S n)) with (Z.succ (Z.of_nat n)) by lia. rewrite Z.pow_succ_r by lia.
    rewrite Z.rem_mul_r by (try apply Z.pow_pos_nonneg; lia). reflexivity.
Qed.
Lemma ld_sto_same n m a v : 0 <= a -> a + Z.of_nat n <= W32 -> 0 <= v < 256 ^ Z.of_nat n -> ld (sto m a n v) a n = v.
Proof. intros Ha Hn Hv. rewrite ld_sto_mod by assumption. apply Z.mod_small. exact Hv. Qed.
Lemma ld_sto_diff n k m a v b : 0 <= a -> a + Z.of_nat n <= W32 -> 0 <= b -> b + Z.of_nat k <= W32 ->
  (a + Z.of_nat n <= b \/ b + Z.of_nat k <= a) -> ld (sto m a n v) b k = ld m b k.
Proof. intros. apply ld_ext; try assumption. intros x Hx. apply sto_out; lia. Qed.
Lemma sto_in n : forall m a v x, 0 <= a -> a + Z.of_nat n <= W32 -> a <= x < a + Z.of_nat n ->
  sto m a n v x = (v / 256 ^ (x - a)) mod 256.
Proof.
  induction n as [|n IH]; intros m a v x Ha Hw Hx; [lia|]. cbn [sto].
  destruct (Z.eq_dec x a) as [-> |Hne].
  - rewrite sto_out by lia. rewrite w32_small by (unfold W32 in *; lia). rewrite upd_same, Z.sub_diag, Z.pow_0_r, Z.div_1_r. reflexivity.
  - rewrite IH; [|lia|lia|lia]. replace (x - a) with (1 + (x - (a + 1))) by lia. rewrite Z.pow_add_r; [|lia|lia].
    rewrite Z.pow_1_r, Z.div_div; [reflexivity|lia|apply Z.pow_pos_nonneg; lia].
Qed.
Lemma ld_byte n : forall m a j, bytes_ok m -> 0 <= a -> a + Z.of_nat n <= W32 -> 0 <= j < Z.of_nat n ->
  (ld m a n / 256 ^ j) mod 256 = m (a + j).
Proof.
  induction n as [|n IH]; intros m a j Hm Ha Hw Hj; [lia|]. cbn [ld]. rewrite w32_small by (unfold W32 in *; lia).
  pose proof (Hm a) as Hb. destruct (Z.eq_dec j 0) as [-> |Hj0].
  - rewrite Z.pow_0_r, Z.div_1_r, Z.add_0_r. rewrite (Z.mul_comm 256), Z.mod_add by lia. apply Z.mod_small. exact Hb.
  - replace j with (1 + (j - 1)) at 1 by lia. rewrite Z.pow_add_r by lia. rewrite <- Z.div_div; [|lia|apply Z.pow_pos_nonneg; lia]. rewrite Z.pow_1_r.
    replace ((m a + 256 * ld m (a + 1) n) / 256) with (ld m (a + 1) n).
    + rewrite IH; [f_equal; lia|exact Hm|lia|lia|lia].
    + rewrite (Z.mul_comm 256), Z.div_add; [|lia]. rewrite Z.div_small by exact Hb. lia.
Qed.
Lemma ld_split n p : forall m a, ld m a (n + p) = ld m a n + 256 ^ Z.of_nat n * ld m (a + Z.of_nat n) p.
Proof.
  induction n as [|n IH]; intros m a.
  - cbn [Nat.add ld]. change (256 ^ Z.of_nat 0) with 1. replace (a + Z.of_nat 0) with a by lia. lia.
  - cbn [Nat.add ld]. rewrite IH, Nat2Z.inj_succ, Z.pow_succ_r by lia. replace (a + 1 + Z.of_nat n) with (a + Z.succ (Z.of_nat n)) by lia. lia.
Qed.
(** the lower bytes of a number *)
Lemma ld_low n p m a : bytes_ok m -> ld m a n = ld m a (n + p) mod 256 ^ Z.of_nat n.
Proof.
  intros H. rewrite ld_split, (Z.mul_comm (256 ^ _)), Z.mod_add; [|apply Z.pow_nonzero; lia].
  rewrite Z.mod_small; [reflexivity|]. apply ld_range. exact H.
Qed.
Lemma sto_split n p : forall m a v x, 0 <= a -> a + Z.of_nat (n + p) <= W32 ->
  sto m a (n + p) v x = sto (sto m a n v) (a + Z.of_nat n) p (v / 256 ^ Z.of_nat n) x.
Proof.
  intros m a v x Ha Hw. destruct (Z_lt_dec x a) as [L|L]; [rewrite !sto_out by lia; reflexivity|].
  destruct (Z_lt_dec x (a + Z.of_nat n)) as [L1|L1].
  - rewrite (sto_out p) by lia. rewrite !sto_in by lia. reflexivity.
  - destruct (Z_lt_dec x (a + Z.of_nat (n + p))) as [L2|L2]; [|rewrite !sto_out by lia; reflexivity].
    rewrite !sto_in by lia. rewrite Z.div_div; [|apply Z.pow_nonzero; lia|apply Z.pow_pos_nonneg; lia].
    rewrite <- Z.pow_add_r by lia. f_equal. f_equal. f_equal. lia.
Qed.

Lemma movs_out w n : forall m d a x, 0 <= d -> d + Z.of_nat (n * w) <= W32 -> ~ (d <= x < d + Z.of_nat (n * w)) -> movs w n m d a x = m x.
Proof.
  induction n as [|n IH]; intros m d a x Hd Hw Hx; [reflexivity|]. cbn [movs].
  rewrite IH by lia. apply sto_out; lia.
Qed.
Lemma movs_bytes w n : forall m d a, bytes_ok m -> bytes_ok (movs w n m d a).
Proof. induction n as [|n IH]; intros m d a Hm; [exact Hm|]. cbn [movs]. apply IH, sto_bytes. exact Hm. Qed.
Lemma movs_in w n : forall m d a x, bytes_ok m -> 0 <= d -> d + Z.of_nat (n * w) <= W32 -> 0 <= a -> a + Z.of_nat (n * w) <= W32 ->
  (a + Z.of_nat (n * w) <= d \/ d + Z.of_nat (n * w) <= a) -> d <= x < d + Z.of_nat (n * w) -> movs w n m d a x = m (a + (x - d)).
Proof.
  induction n as [|n IH]; intros m d a x Hm Hd Hw Ha Hwa Hdis Hx; [lia|]. cbn [movs].
  destruct (Z_lt_dec x (d + Z.of_nat w)) as [L|L].
  - rewrite movs_out by lia. rewrite sto_in by lia. rewrite ld_byte by (auto; lia). f_equal. 
  - rewrite IH; [|apply sto_bytes; exact Hm|lia|lia|lia|lia|lia|lia]. rewrite sto_out by lia. f_equal. lia.
Qed.
(** copying bytes is storing the number *)
Lemma movs_sto w n m d a x : bytes_ok m -> 0 <= d -> d + Z.of_nat (n * w) <= W32 -> 0 <= a -> a + Z.of_nat (n * w) <= W32 ->
  (a + Z.of_nat (n * w) <= d \/ d + Z.of_nat (n * w) <= a) -> movs w n m d a x = sto m d (n * w) (ld m a (n * w)) x.
Proof.
  intros Hm Hd Hw Ha Hwa Hdis. destruct (Z_lt_dec x d) as [L|L]; [rewrite movs_out, sto_out by lia; reflexivity|].
  destruct (Z_lt_dec x (d + Z.of_nat (n * w))) as [L2|L2]; [|rewrite movs_out, sto_out by lia; reflexivity].
  rewrite movs_in by (auto; lia). rewrite sto_in by lia. rewrite ld_byte by (auto; lia). reflexivity.
Qed.

(** ** Positions *)
Definition off (l : list asm) : Z := Z.of_nat (length (emit_all l)).
Lemma emit_all_app l1 l2 : emit_all (l1 ++ l2) = emit_all l1 ++ emit_all l2.
Proof. apply flat_map_app. Qed.
Lemma off_app l1 l2 : off (l1 ++ l2) = off l1 + off l2.
Proof. unfold off. rewrite emit_all_app, app_length. lia. Qed.
Lemma off_nonneg l : 0 <= off l.
Proof. unfold off. lia. Qed.
Lemma off_cons a l : off (a :: l) = off [a] + off l.
Proof. change (a :: l) with ([a] ++ l). apply off_app. Qed.

(** ** Instructions that neither jump nor call do not depend on their position *)
Definition straight (i : insn) : bool :=
  match i with IJmp _ | IJcc _ _ | ICall _ | IRet _ => false | _ => true end.
Definition omap {A B} (f : A -> B) (o : option A) : option B := match o with Some x => Some (f x) | None => None end.
Lemma exec1_pc u i s p : straight i = true -> exec1 u i (set_pc s p) = omap (fun x => set_pc x p) (exec1 u i s).
Proof.
  intros H.
  assert (E : forall o, ea (set_pc s p) o = ea s o) by (intros []; reflexivity).
  assert (R : forall o, rd (set_pc s p) o = rd s o) by (intros []; reflexivity).
  assert (R8 : forall o, rd8 (set_pc s p) o = rd8 s o) by (intros []; reflexivity).
  assert (Wr : forall s o v, wr (set_pc s p) o v = set_pc (wr s o v) p) by (intros s1 [] v; reflexivity).
  assert (W8 : forall s o v, wr8 (set_pc s p) o v = set_pc (wr8 s o v) p) by (intros s1 [r|] v; cbn [wr8]; [destruct (r <? 4)|]; reflexivity).
  assert (Hh : forall c, holds (set_pc s p) c = holds s c) by reflexivity.
  assert (A : forall op d a b, alu op (set_pc s p) d a b = omap (fun x => set_pc x p) (alu op s d a b)).
  { intros op d a b. destruct op; cbn [alu omap]; try reflexivity; rewrite <- Wr; reflexivity. }
  assert (M : forall w, rep_movs w (set_pc s p) = omap (fun x => set_pc x p) (rep_movs w s)).
  { intros w. unfold rep_movs. cbn [df set_pc]. destruct (df s); reflexivity. }
  destruct i; cbn [straight] in H; try discriminate H; cbn [exec1 omap]; rewrite ?E, ?R, ?R8, ?Hh, ?A, ?Wr, ?W8; try reflexivity; try apply M.
  all: try (match goal with |- context [if ?b =? 8 then _ else _] => destruct (b =? 8); [reflexivity|] end).
  all: try (match goal with |- context [holds ?x ?c] => destruct (holds x c) as [b|]; [|reflexivity]; cbn [omap]; rewrite W8; reflexivity end).
  all: match goal with |- context [ea ?x ?o] => destruct (ea x o); [|reflexivity] end; cbn [fp set_pc]; try reflexivity.
  - destruct (_ <? _)%nat; reflexivity.
  - destruct (fp s); reflexivity.
Qed.

(** ** Running *)
Section Run.
Variables (u : fpu) (base : Z) (env : nat -> Z -> st -> st).
Lemma reaches_trans code c1 c2 c3 : reaches u base env code c1 c2 -> reaches u base env code c2 c3 -> reaches u base env code c1 c3.
Proof. induction 1 as [c|c c1' c2' H _ IH]; intros K; [exact K|]. eapply r_step; [exact H|]. apply IH. exact K. Qed.
Lemma fetch_at pre a post : asm_ok a ->
  fetch (emit_all (pre ++ a :: post)) (off pre) = Some (meaning a, off (pre ++ [a])).
Proof.
  intros Ha. unfold fetch. pose proof (off_nonneg pre) as H0. destruct (Z.leb_spec 0 (off pre)); [|lia].
  unfold off. rewrite Nat2Z.id. rewrite emit_all_app. rewrite skipn_app, skipn_all, Nat.sub_diag. cbn [skipn app].
  replace (emit_all (a :: post)) with (emit a ++ emit_all post) by reflexivity.
  rewrite decode_emit by exact Ha. f_equal. f_equal.
  rewrite !app_length, emit_all_app, app_length. replace (emit_all [a]) with (emit a ++ []) by reflexivity.
  rewrite app_nil_r. lia.
Qed.
Lemma step_other code s tr i p : fetch code (pc s) = Some (i, p) -> match i with ICall _ => False | _ => True end ->
  step u base env code (s, tr) = match exec1 u i (set_pc s p) with Some s' => Some (s', tr) | None => None end.
Proof. intros H K. cbn [step]. rewrite H. destruct i; try reflexivity. destruct K. Qed.

(** The whole program, what is left of it, and what is to be shown of the rest of the run *)
Variable P : list asm.
Variable O : Type.
Definition sys := list event -> st -> O -> Prop.
Definition suffix (l : list asm) : Prop := exists pre, P = pre ++ l.
Definition W (l : list asm) (s : st) (tr : list event) (F : sys) : Prop :=
  suffix l -> exists tr' s' o,
    reaches u base env (emit_all P) (set_pc s (off P - off l), tr) (s', tr ++ tr') /\ F tr' s' o.

Lemma W_known l s tr F : (suffix l -> W l s tr F) -> W l s tr F.
Proof. intros H S. exact (H S S). Qed.
Lemma W_weak l s tr (F F' : sys) : (forall a b c, F a b c -> F' a b c) -> W l s tr F -> W l s tr F'.
Proof. intros H K S. destruct (K S) as (tr' & s' & o & R & Q). exists tr', s', o. split; [exact R|]. apply H. exact Q. Qed.
Lemma W_stop l s tr (F : sys) o : F [] (set_pc s (off P - off l)) o -> W l s tr F.
Proof. intros H S. exists [], (set_pc s (off P - off l)), o. rewrite app_nil_r. split; [constructor|exact H]. Qed.
Lemma suffix_tl a l : suffix (a :: l) -> suffix l.
Proof. intros [pre E]. exists (pre ++ [a]). rewrite <- app_assoc. exact E. Qed.
Lemma suffix_app l1 l2 : suffix (l1 ++ l2) -> suffix l2.
Proof. intros [pre E]. exists (pre ++ l1). rewrite <- app_assoc. exact E. Qed.
Lemma W_exec a l s s' tr F : asm_ok a -> straight (meaning a) = true -> exec1 u (meaning a) s = Some s' ->
  W l s' tr F -> W (a :: l) s tr F.
Proof.
  intros Ha Hs He K [pre E]. destruct (K (suffix_tl a l (ex_intro _ pre E))) as (tr' & s2 & o & R & Q). exists tr', s2, o. split; [|exact Q].
  eapply r_step; [|exact R].
  rewrite (step_other _ _ _ (meaning a) (off P - off l)).
  - replace (set_pc (set_pc s (off P - off (a :: l))) (off P - off l)) with (set_pc s (off P - off l)) by reflexivity.
    rewrite exec1_pc by exact Hs. rewrite He. reflexivity.
  - cbn [pc set_pc]. rewrite E at 1. rewrite E. rewrite !off_app. replace (off pre + off (a :: l) - off (a :: l)) with (off pre) by lia.
    rewrite fetch_at by exact Ha. f_equal. f_equal. rewrite !off_app, (off_cons a l). lia.
  - destruct (meaning a); try exact I. discriminate Hs.
Qed.
Definition ev_at (l : list asm) (t : Z) (s : st) (n : nat) : event :=
  let s1 := push (set_pc s (off P - off l - 2)) (w32 (base + (off P - off l))) in Ev t s1 (env n t s1).
Lemma off_call r : off [ACall_Reg r] = 2. Proof. reflexivity. Qed.
Lemma W_call r l s tr F : reg_ok r ->
  (let e := ev_at l (rg s r) s (length tr) in W l (e_out e) (tr ++ [e]) (fun tr' => F (e :: tr'))) ->
  W (ACall_Reg r :: l) s tr F.
Proof.
  cbv zeta. intros Hr K [pre E]. set (e := ev_at l (rg s r) s (length tr)) in *.
  destruct (K (suffix_tl _ _ (ex_intro _ pre E))) as (tr' & s2 & o & R & Q). exists (e :: tr'), s2, o. split; [|exact Q].
  replace (tr ++ e :: tr') with ((tr ++ [e]) ++ tr') by (rewrite <- app_assoc; reflexivity).
  eapply r_step; [|exact R].
  assert (Fe : fetch (emit_all P) (off P - off (ACall_Reg r :: l)) = Some (ICall (OReg r), off P - off l)).
  { rewrite E at 1. rewrite E. rewrite !off_app. replace (off pre + off (ACall_Reg r :: l) - off (ACall_Reg r :: l)) with (off pre) by lia.
    rewrite (fetch_at pre (ACall_Reg r) l Hr). cbn [meaning]. f_equal. f_equal. rewrite !off_app, (off_cons _ l). lia. }
  cbn [step]. cbn [pc set_pc]. rewrite Fe. cbn [rd]. cbn [rg set_pc].
  f_equal. f_equal.
  unfold e, ev_at. cbn [e_out]. rewrite (off_cons _ l), off_call. replace (off P - (2 + off l)) with (off P - off l - 2) by lia. reflexivity.
  unfold e, ev_at. rewrite (off_cons _ l), off_call. replace (off P - (2 + off l)) with (off P - off l - 2) by lia. reflexivity.
Qed.
(** jumps over [body] *)
Lemma W_jcc a c d body l s tr F b : meaning a = IJcc c d -> asm_ok a -> d = off body -> holds s c = Some b ->
  (if b then W l s tr F else W (body ++ l) s tr F) -> W (a :: body ++ l) s tr F.
Proof.
  intros Hm Ha Hd Hh K [pre E].
  assert (Fe : fetch (emit_all P) (off P - off (a :: body ++ l)) = Some (meaning a, off P - off (body ++ l))).
  { rewrite E at 1. rewrite E. rewrite !off_app. replace (off pre + off (a :: body ++ l) - off (a :: body ++ l)) with (off pre) by lia.
    rewrite fetch_at by exact Ha. f_equal. f_equal. rewrite !off_app, (off_cons a (body ++ l)), (off_app body). lia. }
  assert (St : step u base env (emit_all P) (set_pc s (off P - off (a :: body ++ l)), tr) =
    Some (set_pc s (if b then off P - off l else off P - off (body ++ l)), tr)).
  { rewrite (step_other _ _ _ (IJcc c d) (off P - off (body ++ l))); [|rewrite <- Hm; exact Fe|exact I].
    cbn [exec1]. replace (holds (set_pc (set_pc s (off P - off (a :: body ++ l))) (off P - off (body ++ l))) c) with (holds s c) by reflexivity.
    rewrite Hh. destruct b; [|reflexivity]. f_equal. f_equal. unfold set_pc. cbn [pc rg fp zf sf ovf df mm]. f_equal. rewrite off_app. lia. }
  destruct b.
  - destruct (K (suffix_app body l (suffix_tl a _ (ex_intro _ pre E)))) as (tr' & s2 & o & R & Q). exists tr', s2, o. split; [|exact Q].
    eapply r_step; [exact St|exact R].
  - destruct (K (suffix_tl a _ (ex_intro _ pre E))) as (tr' & s2 & o & R & Q). exists tr', s2, o. split; [|exact Q].
    eapply r_step; [exact St|exact R].
Qed.
Lemma W_jmp a d body l s tr F : meaning a = IJmp d -> asm_ok a -> d = off body -> W l s tr F -> W (a :: body ++ l) s tr F.
Proof.
  intros Hm Ha Hd K [pre E].
  destruct (K (suffix_app body l (suffix_tl a _ (ex_intro _ pre E)))) as (tr' & s2 & o & R & Q). exists tr', s2, o. split; [|exact Q].
  eapply r_step; [|exact R].
  rewrite (step_other _ _ _ (IJmp d) (off P - off (body ++ l))).
  - cbn [exec1]. f_equal. f_equal. unfold set_pc. cbn [pc rg fp zf sf ovf df mm]. f_equal. rewrite off_app. lia.
  - cbn [pc set_pc]. rewrite E at 1. rewrite E. rewrite !off_app. replace (off pre + off (a :: body ++ l) - off (a :: body ++ l)) with (off pre) by lia.
    rewrite <- Hm. rewrite fetch_at by exact Ha. f_equal. f_equal. rewrite !off_app, (off_cons a (body ++ l)), (off_app body). lia.
  - exact I.
Qed.
(** back to the beginning of [body] *)
Lemma W_back a d body l s tr F : meaning a = IJmp d -> asm_ok a -> d = - off (body ++ [a]) -> suffix (body ++ a :: l) ->
  W (body ++ a :: l) s tr F -> W (a :: l) s tr F.
Proof.
  intros Hm Ha Hd Hs K [pre E].
  destruct (K Hs) as (tr' & s2 & o & R & Q). exists tr', s2, o. split; [|exact Q].
  eapply r_step; [|exact R].
  rewrite (step_other _ _ _ (IJmp d) (off P - off l)).
  - cbn [exec1]. f_equal. f_equal. unfold set_pc. cbn [pc rg fp zf sf ovf df mm]. f_equal. rewrite Hd, !off_app, (off_cons a l). lia.
  - cbn [pc set_pc]. rewrite E at 1. rewrite E. rewrite !off_app. replace (off pre + off (a :: l) - off (a :: l)) with (off pre) by lia.
    rewrite <- Hm. rewrite fetch_at by exact Ha. f_equal. f_equal. rewrite !off_app, (off_cons a l). lia.
  - exact I.
Qed.
Lemma ret_at a n l s : meaning a = IRet n -> asm_ok a -> suffix (a :: l) -> at_ret (emit_all P) n (set_pc s (off P - off (a :: l))).
Proof.
  intros Hm Ha [pre E]. unfold at_ret. cbn [pc set_pc]. exists (off (pre ++ [a])). rewrite E at 1. rewrite E, off_app.
  replace (off pre + off (a :: l) - off (a :: l)) with (off pre) by lia. rewrite fetch_at by exact Ha. rewrite Hm. reflexivity.
Qed.
End Run.

(** ** Comparisons *)
Lemma s32_inj a b : 0 <= a < W32 -> 0 <= b < W32 -> s32 a = s32 b -> a = b.
Proof. unfold s32, W32. intros Ha Hb. destruct (Z.ltb_spec a (2 ^ 31)), (Z.ltb_spec b (2 ^ 31)); lia. Qed.
Lemma cmp_lt s a b : 0 <= a < W32 -> 0 <= b < W32 ->
  let s' := flags s (w32 (a - b)) (negb (in_s32 (s32 a - s32 b))) in
  xorb (sf s') (ovf s') = (s32 a <? s32 b) /\ zf s' = (a =? b).
Proof.
  intros Ha Hb s'. subst s'. unfold flags. cbn [set_fl sf ovf zf]. unfold in_s32.
  assert (E : w32 (a - b) = if a <? b then a - b + W32 else a - b).
  { destruct (Z.ltb_spec a b).
    - unfold w32. rewrite <- (Z_mod_plus_full (a - b) 1 W32). rewrite Z.mod_small; lia.
    - apply w32_small. lia. }
  rewrite E. unfold s32, W32 in *.
  split.
  - destruct (Z.ltb_spec a b), (Z.ltb_spec a (2 ^ 31)), (Z.ltb_spec b (2 ^ 31));
      match goal with |- xorb (?l <=? ?x) (negb ((?y <=? ?z) && (?z <? ?u))) = (?p <? ?q) =>
        destruct (Z.leb_spec l x), (Z.leb_spec y z), (Z.ltb_spec z u), (Z.ltb_spec p q); cbn [xorb andb negb]; try reflexivity; lia end.
  - destruct (Z.ltb_spec a b), (Z.eqb_spec a b);
      match goal with |- (?x =? 0) = _ => destruct (Z.eqb_spec x 0) end; try reflexivity; lia.
Qed.
