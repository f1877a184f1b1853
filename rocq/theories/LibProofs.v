(** Proofs about LibModel.v *)
From Coq Require Import List ZArith Bool Lia.
From Verif Require Import LibModel LibSpec.
Import ListNotations.
Local Open Scope Z_scope.
Notation length := List.length.

(** ** Bytes *)
Lemma holds_app m a l1 l2 : holds m a (l1 ++ l2) -> holds m a l1 /\ holds m (a + Z.of_nat (length l1)) l2.
Proof.
  intros H. split.
  - intros i b Hi. apply H. rewrite nth_error_app1; [exact Hi|]. apply nth_error_Some. congruence.
  - intros i b Hi. rewrite <- Z.add_assoc, <- Nat2Z.inj_add. apply H. rewrite nth_error_app2, Nat.add_comm, Nat.add_sub by lia. exact Hi.
Qed.
Lemma holds_field m a l k n x : holds m a l -> firstn n (skipn k l) = le n x -> (k <= length l)%nat -> holds m (a + Z.of_nat k) (le n x).
Proof.
  intros H E Hk. rewrite <- (firstn_skipn k l) in H. apply holds_app in H as [_ H]. rewrite firstn_length_le in H by exact Hk.
  rewrite <- (firstn_skipn n (skipn k l)) in H. apply holds_app in H as [H _]. rewrite E in H. exact H.
Qed.
Lemma le_length n : forall x, length (le n x) = n.
Proof. induction n as [|n IH]; intros x; cbn [le length]; [reflexivity|rewrite IH; reflexivity]. Qed.
Lemma rd_holds m n : forall a x, holds m a (le n x) -> 0 <= x < 256 ^ Z.of_nat n -> rd m a n = Some x.
Proof.
  induction n as [|n IH]; intros a x H Hx; cbn [rd le] in *.
  - change (256 ^ Z.of_nat 0) with 1 in Hx. f_equal. lia.
  - pose proof (H 0%nat _ eq_refl) as E. rewrite Z.add_0_r in E. rewrite E.
    rewrite (IH (a + 1) (x / 256)).
    + f_equal. pose proof (Z.div_mod x 256). lia.
    + change (x mod 256 :: le n (x / 256)) with ([x mod 256] ++ le n (x / 256)) in H. apply holds_app in H as [_ H]. exact H.
    + rewrite Nat2Z.inj_succ, Z.pow_succ_r in Hx by lia. split; [apply Z.div_pos; lia|apply Z.div_lt_upper_bound; lia].
Qed.

(** ** Pages *)
Lemma clear_down L k x : 0 < k < 30 -> (word L = 4 \/ word L = 8)%nat -> 0 <= x < W (word L) -> clear L x (2 ^ k - 1) = down (2 ^ k) x.
Proof.
  intros Hk Hw Hx. unfold clear, down. set (n := 8 * Z.of_nat (word L)). assert (Hn : 32 <= n) by lia.
  assert (E : W (word L) - 1 - (2 ^ k - 1) = Z.shiftl (Z.ones (n - k)) k).
  { rewrite Z.shiftl_mul_pow2, Z.ones_equiv by lia. unfold W. fold n. replace n with (n - k + k) at 1 by lia. rewrite Z.pow_add_r by lia. lia. }
  rewrite E. transitivity (Z.ldiff x (Z.ones k)).
  - apply Z.bits_inj'. intros i Hi. rewrite Z.land_spec, Z.ldiff_spec, Z.shiftl_spec by lia.
    destruct (Z.ltb_spec i k) as [C|C].
    + rewrite (Z.testbit_neg_r _ (i - k)), Z.ones_spec_low by lia. reflexivity.
    + rewrite (Z.ones_spec_high k i) by lia. destruct (Z.ltb_spec (i - k) (n - k)) as [D|D].
      * rewrite Z.ones_spec_low by lia. reflexivity.
      * rewrite Z.ones_spec_high by lia. cbn [negb]. rewrite andb_false_r, andb_true_r. symmetry. destruct (Z.eq_dec x 0) as [->|X0]; [apply Z.bits_0|].
        apply Z.bits_above_log2; [lia|]. unfold W in Hx. fold n in Hx. destruct Hx as [Hx1 Hx2]. apply Z.log2_lt_pow2 in Hx2; lia.
  - rewrite Z.ldiff_ones_r, Z.shiftl_mul_pow2, Z.shiftr_div_pow2 by lia. lia.
Qed.
Lemma down_le page x : 0 < page -> down page x <= x < down page x + page.
Proof. intros H. unfold down. pose proof (Z.div_mod x page). pose proof (Z.mod_pos_bound x page H). lia. Qed.
Lemma up_ge page x : 0 < page -> x <= up page x <= x + page - 1.
Proof. intros H. unfold up. pose proof (Z.div_mod (x + page - 1) page). pose proof (Z.mod_pos_bound (x + page - 1) page H). lia. Qed.
Lemma up_down page x : up page x = down page (x + page - 1).
Proof. reflexivity. Qed.
Lemma up_mono page x y : 0 < page -> x <= y -> up page x <= up page y.
Proof. intros H Hle. unfold up. apply Z.mul_le_mono_nonneg_l; [lia|]. apply Z.div_le_mono; lia. Qed.
Lemma down_shift page x q : 0 < page -> down page (x - page * q) = down page x - page * q.
Proof. intros H. unfold down. replace (x - page * q) with (x + (- q) * page) by lia. rewrite Z.div_add by lia. lia. Qed.

(** ** ELF *)
Definition lay (b64 : bool) : layout := if b64 then elf64 else elf32.
Lemma W_space b64 : W (word (lay b64)) = space b64.
Proof. destruct b64; reflexivity. Qed.
Lemma w_id b64 x : 0 <= x < space b64 -> w (lay b64) x = x.
Proof. intros H. unfold w. rewrite W_space. apply Z.mod_small. exact H. Qed.
Lemma word_lay b64 : (word (lay b64) = 4 \/ word (lay b64) = 8)%nat.
Proof. destruct b64; [right|left]; reflexivity. Qed.
Lemma space_pow b64 : space b64 = 256 ^ Z.of_nat (word (lay b64)).
Proof. destruct b64; reflexivity. Qed.
Lemma phdr_length b64 s : Z.of_nat (length (phdr b64 s)) = ph_size (lay b64).
Proof. destruct b64; reflexivity. Qed.
Lemma space_big b64 : 2 ^ 32 <= space b64.
Proof. destruct b64; unfold space; lia. Qed.

Lemma phdr_fields b64 page m a s : holds m a (phdr b64 s) -> fits b64 page s -> 0 < page -> 0 <= a -> a + ph_size (lay b64) < space b64 ->
  rd m a 4 = Some (p_type s) /\
  rd m (w (lay b64) (a + o_vaddr (lay b64))) (word (lay b64)) = Some (p_vaddr s) /\
  rd m (w (lay b64) (a + o_filesz (lay b64))) (word (lay b64)) = Some (p_filesz s) /\
  rd m (w (lay b64) (a + o_flags (lay b64))) 4 = Some (p_flags s).
Proof.
  intros H (F1 & F2 & F3 & F4 & F5) Hp Ha Hs.
  assert (A : forall k n x, firstn n (skipn k (phdr b64 s)) = le n x -> (k <= length (phdr b64 s))%nat -> 0 <= x < 256 ^ Z.of_nat n -> rd m (a + Z.of_nat k) n = Some x).
  { intros k n x E Hk Hx. apply rd_holds; [|exact Hx]. apply (holds_field m a (phdr b64 s)); assumption. }
  assert (V : 0 <= p_vaddr s < 256 ^ Z.of_nat (word (lay b64))) by (rewrite <- space_pow; lia).
  assert (Z_ : 0 <= p_filesz s < 256 ^ Z.of_nat (word (lay b64))) by (rewrite <- space_pow; lia).
  rewrite !w_id by (destruct b64; cbn [lay elf64 elf32 o_vaddr o_filesz o_flags ph_size] in *; lia).
  split; [|split; [|split]].
  - rewrite <- (Z.add_0_r a). apply (A 0%nat); [destruct b64; reflexivity|destruct b64; cbn; lia|exact F1].
  - destruct b64; [apply (A 16%nat)|apply (A 8%nat)]; try reflexivity; try exact V; cbn; lia.
  - destruct b64; [apply (A 32%nat)|apply (A 16%nat)]; try reflexivity; try exact Z_; cbn; lia.
  - destruct b64; [apply (A 4%nat)|apply (A 24%nat)]; try reflexivity; try exact F2; cbn; lia.
Qed.

Section Passes.
Variables (b64 : bool) (m : memory) (k : Z).
Hypothesis Hk : 0 < k < 30.
Notation page := (2 ^ k).
Notation L := (lay b64).
Lemma page_pos : 0 < page.
Proof. apply Z.pow_pos_nonneg; lia. Qed.
Lemma start_eq s : fits b64 page s -> clear L (p_vaddr s) (page - 1) = down page (p_vaddr s).
Proof. intros (_ & _ & F3 & F4 & F5). apply clear_down; [exact Hk|apply word_lay|]. rewrite W_space. pose proof page_pos. lia. Qed.
Lemma end_eq s : fits b64 page s -> clear L (w L (p_vaddr s + p_filesz s + (page - 1))) (page - 1) = up page (p_vaddr s + p_filesz s).
Proof.
  intros (_ & _ & F3 & F4 & F5). pose proof page_pos. rewrite w_id by lia. rewrite clear_down; [|exact Hk|apply word_lay|rewrite W_space; lia].
  rewrite up_down. f_equal. lia.
Qed.

Lemma pass1_ok l : forall a mn mx, Forall (fits b64 page) l -> holds m a (flat_map (phdr b64) l) -> 0 <= a -> a + Z.of_nat (length (flat_map (phdr b64) l)) < space b64 ->
  exists mn' mx', pass1 L m (page - 1) (length l) a mn mx = Some (mn', mx') /\
    (mn' <= mn /\ (forall s, In s l -> load s = true -> mn' <= down page (p_vaddr s)) /\ (mn' = mn \/ exists s, In s l /\ load s = true /\ mn' = down page (p_vaddr s))) /\
    (mx <= mx' /\ (forall s, In s l -> load s = true -> up page (p_vaddr s + p_filesz s) <= mx') /\ (mx' = mx \/ exists s, In s l /\ load s = true /\ mx' = up page (p_vaddr s + p_filesz s))).
Proof.
  induction l as [|s l IH]; intros a mn mx Hf Hh Ha Hs; cbn [pass1 length flat_map] in *.
  - exists mn, mx. split; [reflexivity|]. split; (split; [lia|split; [intros s []|left; reflexivity]]).
  - inversion Hf as [|? ? Fs Fl]; subst. apply holds_app in Hh as [H1 H2]. rewrite phdr_length in H2. rewrite app_length, Nat2Z.inj_add, phdr_length in Hs.
    assert (S1 : a + ph_size L < space b64) by lia. assert (S2 : 0 < ph_size L) by (destruct b64; reflexivity).
    destruct (phdr_fields b64 page m a s H1 Fs page_pos Ha S1) as (R1 & R2 & R3 & _). rewrite R1, R2, R3. rewrite start_eq, end_eq, (w_id b64 (a + ph_size L)) by (assumption || lia).
    change (p_type s =? 1) with (load s). destruct (load s) eqn:E.
    + destruct (IH (a + ph_size L) (if down page (p_vaddr s) <? mn then down page (p_vaddr s) else mn) (if mx <? up page (p_vaddr s + p_filesz s) then up page (p_vaddr s + p_filesz s) else mx))
        as (mn' & mx' & Q & (A1 & A2 & A3) & (B1 & B2 & B3)); [exact Fl|exact H2|lia|lia|].
      exists mn', mx'. split; [exact Q|]. clear IH Q.
      split; (split; [|split]).
      * destruct (Z.ltb_spec (down page (p_vaddr s)) mn); lia.
      * intros t [<-|Ht] Et; [destruct (Z.ltb_spec (down page (p_vaddr s)) mn); lia|apply A2; assumption].
      * destruct A3 as [A3|(t & T1 & T2 & T3)]; [|right; exists t; repeat split; [right; exact T1|exact T2|exact T3]].
        destruct (down page (p_vaddr s) <? mn); [right; exists s; repeat split; [left; reflexivity|exact E|exact A3]|left; exact A3].
      * destruct (Z.ltb_spec mx (up page (p_vaddr s + p_filesz s))); lia.
      * intros t [<-|Ht] Et; [destruct (Z.ltb_spec mx (up page (p_vaddr s + p_filesz s))); lia|apply B2; assumption].
      * destruct B3 as [B3|(t & T1 & T2 & T3)]; [|right; exists t; repeat split; [right; exact T1|exact T2|exact T3]].
        destruct (mx <? up page (p_vaddr s + p_filesz s)); [right; exists s; repeat split; [left; reflexivity|exact E|exact B3]|left; exact B3].
    + destruct (IH (a + ph_size L) mn mx) as (mn' & mx' & Q & (A1 & A2 & A3) & (B1 & B2 & B3)); [exact Fl|exact H2|lia|lia|].
      exists mn', mx'. split; [exact Q|]. clear IH Q.
      split; (split; [assumption|split]).
      * intros t [<-|Ht] Et; [congruence|apply A2; assumption].
      * destruct A3 as [A3|(t & T1 & T2 & T3)]; [left; exact A3|right; exists t; repeat split; [right; exact T1|exact T2|exact T3]].
      * intros t [<-|Ht] Et; [congruence|apply B2; assumption].
      * destruct B3 as [B3|(t & T1 & T2 & T3)]; [left; exact B3|right; exists t; repeat split; [right; exact T1|exact T2|exact T3]].
Qed.

Lemma flag_bit f : 0 <= f -> (Z.land f 4 =? 4) = Z.testbit f 2.
Proof.
  intros Hf. destruct (Z.testbit f 2) eqn:E.
  - apply Z.eqb_eq. apply Z.bits_inj'. intros i Hi. rewrite Z.land_spec. change 4 with (2 ^ 2). rewrite Z.pow2_bits_eqb by lia. destruct (Z.eqb_spec 2 i) as [<-|]; [rewrite E; reflexivity|apply andb_false_r].
  - apply Z.eqb_neq. intros C. apply (f_equal (fun z => Z.testbit z 2)) in C. rewrite Z.land_spec, E in C. discriminate.
Qed.

Lemma pass2_ok base bias l : forall a, Forall (fits b64 page) l -> holds m a (flat_map (phdr b64) l) -> 0 <= a -> a + Z.of_nat (length (flat_map (phdr b64) l)) < space b64 ->
  0 <= base -> (exists q, base - bias = page * q) -> 0 <= base - bias ->
  (forall s, In s l -> load s = true -> base - bias <= down page (p_vaddr s)) ->
  Forall (fun s => load s = true -> bias + p_vaddr s + p_memsz s + page <= space b64) l ->
  pass2 L m (page - 1) base (base - bias) (length l) a = Some (map (file_pages page bias) (filter (fun s => load s && can_read s) l)).
Proof.
  induction l as [|s l IH]; intros a Hf Hh Ha Hs Hb Hq Hm Hlow Hroom; cbn [pass2 length flat_map filter] in *; [reflexivity|].
  inversion Hf as [|? ? Fs Fl]; subst. inversion Hroom as [|? ? Rs Rl]; subst. apply holds_app in Hh as [H1 H2]. rewrite phdr_length in H2. rewrite app_length, Nat2Z.inj_add, phdr_length in Hs.
  assert (S1 : a + ph_size L < space b64) by lia. assert (S2 : 0 < ph_size L) by (destruct b64; reflexivity).
  destruct (phdr_fields b64 page m a s H1 Fs page_pos Ha S1) as (R1 & R2 & R3 & R4). rewrite R1, R2, R3, R4. rewrite (w_id b64 (a + ph_size L)) by lia.
  rewrite (IH (a + ph_size L)); [|exact Fl|exact H2|lia|lia|exact Hb|exact Hq|exact Hm|intros t Ht; apply Hlow; right; exact Ht|exact Rl].
  change (p_type s =? 1) with (load s). destruct (load s) eqn:E; cbn [andb]; [|reflexivity].
  specialize (Rs eq_refl). destruct Fs as (F1 & F2 & F3 & F4 & F5). rewrite flag_bit by lia. unfold can_read. destruct (Z.testbit (p_flags s) 2); cbn [map]; [|reflexivity].
  pose proof page_pos as Pp. pose proof (Hlow s (or_introl eq_refl) E) as Hd. pose proof (down_le page (p_vaddr s) Pp) as D. destruct Hq as [q Hq].
  pose proof (up_ge page (p_vaddr s + p_filesz s) Pp) as U.
  do 3 f_equal. unfold file_pages.
  assert (E1 : w L (p_vaddr s - (base - bias)) = p_vaddr s - (base - bias)) by (apply w_id; lia). rewrite E1.
  rewrite (clear_down L k (p_vaddr s - (base - bias))); [|exact Hk|apply word_lay|rewrite W_space; lia].
  rewrite (w_id b64 (p_vaddr s - (base - bias) + p_filesz s + (page - 1))) by lia.
  rewrite clear_down; [|exact Hk|apply word_lay|rewrite W_space; lia].
  replace (p_vaddr s - (base - bias) + p_filesz s + (page - 1)) with (p_vaddr s + p_filesz s + page - 1 - (base - bias)) by lia.
  rewrite Hq, !down_shift, <- up_down by exact Pp. rewrite <- Hq.
  f_equal; rewrite w_id; lia.
Qed.
End Passes.

Lemma lowest_unique page e x y : lowest page e x -> lowest page e y -> x = y.
Proof. intros ((s & S1 & S2 & S3) & S4) ((t & T1 & T2 & T3) & T4). pose proof (S4 t T1 T2). pose proof (T4 s S1 S2). lia. Qed.

(** the fields of the header that are looked at *)
Lemma ehdr_fields b64 e m base : holds m base (ehdr b64 e) -> header_ok e -> 0 <= base -> base + 64 <= space b64 ->
  rd m base 4 = Some 0x464c457f /\ rd m (w (lay b64) (base + 6)) 1 = Some (e_iversion e) /\ rd m (w (lay b64) (base + 4)) 1 = Some (e_class e) /\
  rd m (w (lay b64) (base + 18)) 2 = Some (e_machine e) /\ rd m (w (lay b64) (base + 5)) 1 = Some (e_data e) /\ rd m (w (lay b64) (base + 16)) 2 = Some (e_type e).
Proof.
  intros H (B1 & B2 & B3 & B4 & B5) H0 H1.
  assert (A : forall k n x, firstn n (skipn k (ehdr b64 e)) = le n x -> (k <= length (ehdr b64 e))%nat -> 0 <= x < 256 ^ Z.of_nat n -> rd m (base + Z.of_nat k) n = Some x).
  { intros k n x E Hk Hx. apply rd_holds; [|exact Hx]. apply (holds_field m base (ehdr b64 e)); assumption. }
  rewrite !w_id by lia. split; [|split; [|split; [|split; [|split]]]].
  - rewrite <- (Z.add_0_r base). apply (A 0%nat); [destruct b64; reflexivity|destruct b64; cbn; lia|lia].
  - apply (A 6%nat); [destruct b64; reflexivity|destruct b64; cbn; lia|exact B3].
  - apply (A 4%nat); [destruct b64; reflexivity|destruct b64; cbn; lia|exact B1].
  - apply (A 18%nat); [destruct b64; reflexivity|destruct b64; cbn; lia|exact B5].
  - apply (A 5%nat); [destruct b64; reflexivity|destruct b64; cbn; lia|exact B2].
  - apply (A 16%nat); [destruct b64; reflexivity|destruct b64; cbn; lia|exact B4].
Qed.
Lemma ehdr_table b64 e m base : holds m base (ehdr b64 e) -> 0 <= base -> base + 64 <= space b64 ->
  Z.of_nat (length (segs e)) < 65535 -> 0 <= e_phoff e < space b64 ->
  rd m (w (lay b64) (base + o_phnum (lay b64))) 2 = Some (Z.of_nat (length (segs e))) /\
  rd m (w (lay b64) (base + o_phoff (lay b64))) (word (lay b64)) = Some (e_phoff e).
Proof.
  intros H H0 H1 Hn Hp.
  assert (A : forall k n x, firstn n (skipn k (ehdr b64 e)) = le n x -> (k <= length (ehdr b64 e))%nat -> 0 <= x < 256 ^ Z.of_nat n -> rd m (base + Z.of_nat k) n = Some x).
  { intros k n x E Hk Hx. apply rd_holds; [|exact Hx]. apply (holds_field m base (ehdr b64 e)); assumption. }
  rewrite !w_id by (destruct b64; cbn [lay elf64 elf32 o_phnum o_phoff] in *; lia). split.
  - destruct b64; [apply (A 56%nat)|apply (A 44%nat)]; try reflexivity; cbn -[Z.of_nat]; try lia; apply Nat2Z.is_nonneg || lia.
  - rewrite space_pow in Hp. destruct b64; [apply (A 32%nat)|apply (A 28%nat)]; try reflexivity; try exact Hp; cbn; lia.
Qed.

Lemma get_elf_ok b64 e page m bias base : loaded b64 e page m bias base -> shared_library b64 e ->
  exists hi, highest page e hi /\
  get_elf (lay b64) m page (Some base) = Some (Some (LibInfo base (hi - (base - bias)) (map (file_pages page bias) (filter (fun s => load s && can_read s) (segs e))))).
Proof.
  intros [(k & Hk & Hp) Hl Hb Hf Hr Hc (T1 & T2 & T3) He Hph Hpg] (S1 & S2 & S3 & S4 & S5). subst page.
  assert (O : header_ok e) by (unfold header_ok; destruct b64; lia).
  destruct (ehdr_fields b64 e m base He O Hb T3) as (E1 & E2 & E3 & E4 & E5 & E6).
  destruct (ehdr_table b64 e m base He Hb T3 Hc) as (E7 & E8); [lia|].
  pose proof (page_pos k Hk) as Pp.
  destruct (pass1_ok b64 m k Hk (segs e) (base + e_phoff e) (W (word (lay b64)) - 1) 0 Hf Hph) as (mn & mx & Q & (A1 & A2 & A3) & (B1 & B2 & B3)); [lia|exact T2|].
  destruct Hl as ((s0 & L1 & L2 & L3) & L4).
  pose proof (proj1 (Forall_forall _ _) Hf s0 L1) as (F1 & F2 & F3 & F4 & F5).
  pose proof (down_le (2 ^ k) (p_vaddr s0) Pp) as D0. pose proof (A2 s0 L1 L2) as M0.
  assert (Emn : mn = base - bias).
  { apply (lowest_unique (2 ^ k) e); [|split; [exists s0; repeat split; assumption|exact L4]]. split; [|exact A2].
    destruct A3 as [A3|A3]; [|exact A3]. exfalso. rewrite W_space in A3. pose proof (Z.pow_le_mono_r 2 1 k ltac:(lia) ltac:(lia)). lia. }
  subst mn.
  assert (Hhi : highest (2 ^ k) e mx).
  { split; [|exact B2]. destruct B3 as [B3|B3]; [|exact B3]. exists s0. split; [exact L1|]. split; [exact L2|]. pose proof (B2 s0 L1 L2). pose proof (up_ge (2 ^ k) (p_vaddr s0 + p_filesz s0) Pp). lia. }
  exists mx. split; [exact Hhi|].
  unfold get_elf. rewrite E1, E2, E3, E4, E5, E6, E7, E8.
  change (0x464c457f =? 0x464c457f) with true. rewrite S1, S2, S3, S4, S5.
  replace ((if b64 then 2 else 1) =? ELF_CLASS (lay b64)) with true by (destruct b64; reflexivity).
  replace ((if b64 then 62 else 3) =? ELF_MACHINE (lay b64)) with true by (destruct b64; reflexivity).
  change (1 =? 1) with true. change (3 =? 3) with true. cbn [negb].
  rewrite (w_id b64 (base + e_phoff e)) by lia. rewrite Nat2Z.id, Q.
  assert (Hd : 0 <= base - bias).
  { rewrite L3. unfold down. apply Z.mul_nonneg_nonneg; [lia|]. apply Z.div_pos; lia. }
  destruct (Z.ltb_spec mx (base - bias)) as [C|C].
  - exfalso. pose proof (B2 s0 L1 L2). pose proof (up_ge (2 ^ k) (p_vaddr s0 + p_filesz s0) Pp). lia.
  - rewrite (pass2_ok b64 m k Hk base bias (segs e) (base + e_phoff e)); try assumption; [reflexivity|lia|].
    exists (p_vaddr s0 / 2 ^ k). exact L3.
Qed.

Lemma get_elf_other b64 e page m base : holds m base (ehdr b64 e) -> header_ok e -> 0 <= base -> base + 64 <= space b64 -> ~ shared_library b64 e ->
  get_elf (lay b64) m page (Some base) = Some None.
Proof.
  intros H O H0 H1 N. destruct (ehdr_fields b64 e m base H O H0 H1) as (E1 & E2 & E3 & E4 & E5 & E6).
  unfold get_elf. rewrite E1, E2, E3, E4, E5, E6. change (0x464c457f =? 0x464c457f) with true. cbn [negb].
  destruct (Z.eqb_spec (e_iversion e) 1) as [C1|]; [|reflexivity]. destruct (Z.eqb_spec (e_class e) (ELF_CLASS (lay b64))) as [C2|]; [|reflexivity].
  destruct (Z.eqb_spec (e_machine e) (ELF_MACHINE (lay b64))) as [C3|]; [|reflexivity]. destruct (Z.eqb_spec (e_data e) 1) as [C4|]; [|reflexivity].
  destruct (Z.eqb_spec (e_type e) 3) as [C5|]; [|reflexivity].
  exfalso. apply N. repeat split; try assumption; [rewrite C2|rewrite C3]; destruct b64; reflexivity.
Qed.

(** ** The search *)
Lemma occurs_cons m c pat p : occurs m (c :: pat) p <-> (c = 0x2a \/ m p = Some c) /\ occurs m pat (p + 1).
Proof.
  split.
  - intros H. split; [pose proof (H 0%nat c eq_refl) as H0; rewrite Z.add_0_r in H0; exact H0|].
    intros i d Hi. rewrite <- Z.add_assoc. replace (1 + Z.of_nat i) with (Z.of_nat (S i)) by lia. apply H. exact Hi.
  - intros [H1 H2] [|i] d Hi; cbn [nth_error] in Hi.
    + injection Hi as <-. rewrite Z.add_0_r. exact H1.
    + replace (p + Z.of_nat (S i)) with (p + 1 + Z.of_nat i) by lia. apply H2. exact Hi.
Qed.
Lemma match_ok m pat : forall p, readable m p (p + Z.of_nat (length pat)) -> exists b, match_at m pat p = Some b /\ (b = true <-> occurs m pat p).
Proof.
  induction pat as [|c pat IH]; intros p Hr; cbn [match_at length] in *.
  - exists true. split; [reflexivity|]. split; [intros _ i c Hi; destruct i; discriminate|reflexivity].
  - destruct (IH (p + 1)) as (b & E & B); [intros x Hx; apply Hr; lia|].
    pose proof (Hr p ltac:(lia)) as Hp. destruct (m p) as [y|] eqn:Ey; [|congruence].
    destruct (Z.eqb_spec c 0x2a) as [->|C].
    + exists b. split; [exact E|]. rewrite occurs_cons. tauto.
    + destruct (Z.eqb_spec c y) as [<-|D].
      * exists b. split; [exact E|]. rewrite occurs_cons, Ey. tauto.
      * exists false. split; [reflexivity|]. rewrite occurs_cons, Ey. split; [discriminate|]. intros [[X|X] _]; [contradiction|congruence].
Qed.
Lemma scan_ok m pat n : forall p, readable m p (p + Z.of_nat n + Z.of_nat (length pat)) ->
  exists r, scan m pat n p = Some r /\
    match r with
    | Some q => p <= q < p + Z.of_nat n /\ occurs m pat q /\ forall x, p <= x < q -> ~ occurs m pat x
    | None => forall x, p <= x < p + Z.of_nat n -> ~ occurs m pat x
    end.
Proof.
  induction n as [|n IH]; intros p Hr; cbn [scan].
  - exists None. split; [reflexivity|]. intros x Hx. lia.
  - destruct (match_ok m pat p) as (b & E & B); [intros x Hx; apply Hr; lia|]. rewrite E. destruct b.
    + exists (Some p). split; [reflexivity|]. split; [lia|]. split; [apply B; reflexivity|]. intros x Hx. lia.
    + destruct (IH (p + 1)) as (r & Q & R); [intros x Hx; apply Hr; lia|]. exists r. split; [exact Q|].
      assert (N : ~ occurs m pat p) by (intros C; apply B in C; discriminate).
      destruct r as [q|].
      * destruct R as (R1 & R2 & R3). split; [lia|]. split; [exact R2|]. intros x Hx. destruct (Z.eq_dec x p) as [->|]; [exact N|apply R3; lia].
      * intros x Hx. destruct (Z.eq_dec x p) as [->|]; [exact N|apply R; lia].
Qed.
Definition range_ok (n : nat) (m : memory) (pat : list Z) (r : Z * Z) : Prop :=
  Z.of_nat (length pat) <= snd r < W n /\ readable m (fst r) (snd r).
Lemma search_ok n m pat rs : Forall (range_ok n m pat) rs -> exists a, search n m pat rs = Some a /\ answer strictly_in m pat rs a.
Proof.
  induction rs as [|[f s] rs IH]; intros H; cbn [search].
  - exists None. split; [reflexivity|]. intros r q [].
  - inversion H as [|? ? (H1 & H2) H3]; subst. cbn [fst snd] in *. rewrite Z.mod_small by lia.
    set (k := Z.to_nat (s - Z.of_nat (length pat) - f)).
    destruct (Z.le_gt_cases (s - Z.of_nat (length pat)) f) as [C|C].
    + assert (K : k = 0%nat) by (unfold k; lia). rewrite K. cbn [scan]. destruct (IH H3) as (a & Q & A). exists a. split; [exact Q|].
      assert (N : forall q, strictly_in pat (f, s) q -> ~ occurs m pat q) by (intros q [Q1 Q2]; cbn [fst snd] in *; lia).
      destruct a as [p|]; cbn [answer] in *.
      * destruct A as (be & r & af & E & A1 & A2 & A3 & A4). exists ((f, s) :: be), r, af. rewrite E. split; [reflexivity|]. split; [exact A1|]. split; [exact A2|]. split; [exact A3|].
        intros r' q [<-|Hi]; [apply N|apply A4; exact Hi].
      * intros r' q [<-|Hi]; [apply N|apply A; exact Hi].
    + assert (K : Z.of_nat k = s - Z.of_nat (length pat) - f) by (unfold k; lia).
      destruct (scan_ok m pat k f) as (r & Q & R); [intros x Hx; apply H2; lia|]. rewrite Q. destruct r as [p|].
      * exists (Some p). split; [reflexivity|]. destruct R as (R1 & R2 & R3). exists [], (f, s), rs. split; [reflexivity|]. split; [split; cbn [fst snd]; lia|]. split; [exact R2|].
        split; [intros q [Q1 Q2] Hq; cbn [fst snd] in *; apply R3; lia|]. intros r' q [].
      * destruct (IH H3) as (a & Q' & A). exists a. split; [exact Q'|].
        assert (N : forall q, strictly_in pat (f, s) q -> ~ occurs m pat q) by (intros q [Q1 Q2]; cbn [fst snd] in *; apply R; lia).
        destruct a as [p|]; cbn [answer] in *.
        -- destruct A as (be & r & af & E & A1 & A2 & A3 & A4). exists ((f, s) :: be), r, af. rewrite E. split; [reflexivity|]. split; [exact A1|]. split; [exact A2|]. split; [exact A3|].
           intros r' q [<-|Hi]; [apply N|apply A4; exact Hi].
        -- intros r' q [<-|Hi]; [apply N|apply A; exact Hi].
Qed.
Lemma elf_ranges b64 e page m bias base pat : loaded b64 e page m bias base -> Z.of_nat (length pat) <= base ->
  Forall (range_ok (word (lay b64)) m pat) (map (file_pages page bias) (filter (fun s => load s && can_read s) (segs e))).
Proof.
  intros [(k & Hk & Hp) Hl Hb Hf Hr Hc (T1 & T2 & T3) He Hph Hpg] Hpat. subst page. pose proof (page_pos k Hk) as Pp.
  apply Forall_forall. intros r Hin. apply in_map_iff in Hin as (s & <- & Hin). apply filter_In in Hin as [Hin Hc2]. apply andb_true_iff in Hc2 as [C1 C2].
  pose proof (proj1 (Forall_forall _ _) Hf s Hin) as (F1 & F2 & F3 & F4 & F5). pose proof (proj1 (Forall_forall _ _) Hr s Hin C1) as R1.
  pose proof (up_ge (2 ^ k) (p_vaddr s + p_filesz s) Pp) as U. pose proof (down_le (2 ^ k) (p_vaddr s) Pp) as D.
  destruct Hl as [_ L4]. pose proof (L4 s Hin C1) as L5.
  unfold range_ok, file_pages. cbn [fst snd]. rewrite W_space. split; [lia|].
  intros x Hx. apply (Hpg s Hin C1 C2). pose proof (up_mono (2 ^ k) (p_vaddr s + p_filesz s) (p_vaddr s + p_memsz s) Pp ltac:(lia)). lia.
Qed.

(** ** PE *)
Definition pn (b64 : bool) : nat := if b64 then 8%nat else 4%nat.
Lemma pn_W b64 : W (pn b64) = space b64.
Proof. destruct b64; reflexivity. Qed.
Lemma pe_fields b64 p m base : pe_loaded b64 p m base -> pe_shape p ->
  let q := base + lfanew p in
  rd m (base + 60) 4 = Some (lfanew p) /\ rd m q 4 = Some (signature p) /\ rd m (q + 4) 2 = Some (machine p) /\
  rd m (q + 22) 2 = Some (characteristics p) /\ rd m (q + 24) 2 = Some (magic p) /\ rd m (q + 80) 4 = Some (image_size p) /\
  q + 84 <= space b64.
Proof.
  intros [Hb [R1 R2] Hh Hi] (S1 & S2 & S3 & S4 & S5 & S6 & S7 & S8 & S9). cbv zeta. unfold pe_header in *.
  rewrite !app_length, !le_length, S1, S2 in R2.
  apply holds_app in Hh as [_ Hh]. rewrite S1 in Hh. change (Z.of_nat 60) with 60 in Hh.
  apply holds_app in Hh as [A1 Hh]. rewrite le_length in Hh.
  apply holds_app in Hh as [_ Hh]. replace (base + 60 + Z.of_nat 4 + Z.of_nat (length (stub p))) with (base + lfanew p) in Hh by lia.
  set (q := base + lfanew p) in *.
  apply holds_app in Hh as [A2 Hh]. rewrite le_length in Hh. apply holds_app in Hh as [A3 Hh]. rewrite le_length in Hh.
  apply holds_app in Hh as [_ Hh]. rewrite le_length in Hh. apply holds_app in Hh as [_ Hh]. rewrite le_length in Hh. apply holds_app in Hh as [_ Hh]. rewrite le_length in Hh.
  apply holds_app in Hh as [_ Hh]. rewrite le_length in Hh. apply holds_app in Hh as [_ Hh]. rewrite le_length in Hh.
  apply holds_app in Hh as [A4 Hh]. rewrite le_length in Hh. apply holds_app in Hh as [A5 Hh]. rewrite le_length in Hh.
  apply holds_app in Hh as [_ A6]. rewrite S2 in A6.
  split; [apply rd_holds; [exact A1|change (256 ^ Z.of_nat 4) with (2 ^ 32); lia]|].
  split; [apply rd_holds; [exact A2|exact S5]|].
  split; [apply rd_holds; [exact A3|exact S6]|].
  split; [apply rd_holds; [|exact S7]; replace (q + 22) with (q + Z.of_nat 4 + Z.of_nat 2 + Z.of_nat 2 + Z.of_nat 4 + Z.of_nat 4 + Z.of_nat 4 + Z.of_nat 2) by lia; exact A4|].
  split; [apply rd_holds; [|exact S8]; replace (q + 24) with (q + Z.of_nat 4 + Z.of_nat 2 + Z.of_nat 2 + Z.of_nat 4 + Z.of_nat 4 + Z.of_nat 4 + Z.of_nat 2 + Z.of_nat 2) by lia; exact A5|].
  split; [apply rd_holds; [|exact S9]; replace (q + 80) with (q + Z.of_nat 4 + Z.of_nat 2 + Z.of_nat 2 + Z.of_nat 4 + Z.of_nat 4 + Z.of_nat 4 + Z.of_nat 2 + Z.of_nat 2 + Z.of_nat 2 + Z.of_nat 54) by lia; exact A6|].
  unfold q. lia.
Qed.
Lemma dll_bit f : 0 <= f -> (Z.land f 0x2000 =? 0) = negb (Z.testbit f 13).
Proof.
  intros Hf. destruct (Z.testbit f 13) eqn:E; cbn [negb].
  - apply Z.eqb_neq. intros C. apply (f_equal (fun z => Z.testbit z 13)) in C. rewrite Z.land_spec, E in C. discriminate.
  - apply Z.eqb_eq. apply Z.bits_inj'. intros i Hi. rewrite Z.land_spec, Z.bits_0. change 0x2000 with (2 ^ 13). rewrite Z.pow2_bits_eqb by lia. destruct (Z.eqb_spec 13 i) as [<-|]; [rewrite E; reflexivity|apply andb_false_r].
Qed.
Lemma dos_magic b64 p m base : pe_loaded b64 p m base -> pe_shape p -> Forall (fun x => 0 <= x < 256) (dos p) ->
  exists x, rd m base 2 = Some x /\ (x = 0x5a4d <-> firstn 2 (dos p) = [0x4d; 0x5a]).
Proof.
  intros [_ _ Hh _] (S1 & _) Hd. unfold pe_header in Hh. apply holds_app in Hh as [Hh _]. destruct (dos p) as [|a [|b l]]; [discriminate S1|discriminate S1|].
  inversion Hd as [|? ? Ha Hd']; subst. inversion Hd' as [|? ? Hb' _]; subst.
  pose proof (Hh 0%nat a eq_refl) as Q0. rewrite Z.add_0_r in Q0. pose proof (Hh 1%nat b eq_refl) as Q1. change (Z.of_nat 1) with 1 in Q1.
  exists (a + 256 * b). cbn [rd]. rewrite Q0, Q1. split; [f_equal; lia|]. cbn [firstn]. split; [intros E; f_equal; [lia|f_equal; lia]|intros E; injection E; intros; subst; reflexivity].
Qed.
Lemma get_pe_eq b64 p m base : pe_loaded b64 p m base -> pe_shape p -> Forall (fun x => 0 <= x < 256) (dos p) ->
  (pe_library b64 p -> get_pe (pn b64) m (Some base) = Some (Some (LibInfo base (image_size p) [(base, base + image_size p)]))) /\
  (~ pe_library b64 p -> get_pe (pn b64) m (Some base) = Some None).
Proof.
  intros Hl Hs Hd. pose proof (pe_fields b64 p m base Hl Hs) as F. cbv zeta in F. destruct F as (F1 & F2 & F3 & F4 & F5 & F6 & F7).
  destruct (dos_magic b64 p m base Hl Hs Hd) as (x & X1 & X2).
  destruct Hl as [Hb [R1 R2] Hh Hi]. destruct Hs as (S1 & S2 & S3 & S4 & S5 & S6 & S7 & S8 & S9).
  assert (E : forall y, 0 <= y < space b64 -> y mod W (pn b64) = y) by (intros y Hy; apply Z.mod_small; rewrite pn_W; exact Hy).
  unfold get_pe. cbv zeta. rewrite (E (base + 60)), F1 by lia. unfold s32. destruct (Z.ltb_spec (lfanew p) (2 ^ 31)) as [_|C]; [|lia].
  rewrite (E (base + lfanew p)) by lia. set (q := base + lfanew p) in *. assert (Q : 0 <= q) by (unfold q; lia).
  rewrite (E (q + 24)), (E (q + 4)), (E (q + 22)), (E (q + 80)), X1, F2, F3, F4, F5, F6, (E (base + image_size p)) by lia.
  rewrite dll_bit by lia.
  replace (if (pn b64 =? 8)%nat then 0x20b else 0x10b) with (if b64 then 0x20b else 0x10b) by (destruct b64; reflexivity).
  replace (if (pn b64 =? 8)%nat then 0x8664 else 0x14c) with (if b64 then 0x8664 else 0x14c) by (destruct b64; reflexivity).
  split.
  - intros (L1 & L2 & L3 & L4 & L5). apply X2 in L1. rewrite L1, L2, L3, L4, L5, !Z.eqb_refl. reflexivity.
  - intros N. destruct (Z.eqb_spec x 0x5a4d) as [D1|]; [|reflexivity]. destruct (Z.eqb_spec (signature p) 0x4550) as [D2|]; [|reflexivity].
    destruct (Z.eqb_spec (magic p) (if b64 then 0x20b else 0x10b)) as [D3|]; [|reflexivity].
    destruct (Z.eqb_spec (machine p) (if b64 then 0x8664 else 0x14c)) as [D4|]; [|reflexivity].
    cbn [negb]. destruct (Z.testbit (characteristics p) 13) eqn:D5; [|reflexivity].
    exfalso. apply N. apply X2 in D1. repeat split; assumption.
Qed.

(** ** Mach-O *)
Lemma lcmd_length b64 c : (8 <= length (lcmd_bytes b64 c))%nat.
Proof. unfold lcmd_bytes. destruct (match c with Segment _ _ _ _ => _ | Other _ _ => _ end) as [x body]. rewrite !app_length, !le_length. lia. Qed.
Lemma add_segments_ok b64 m l : forall a size, Forall (lcmd_ok b64) l -> holds m a (flat_map (lcmd_bytes b64) l) -> 0 <= a ->
  a + Z.of_nat (length (flat_map (lcmd_bytes b64) l)) < space b64 -> 0 <= size -> size + fold_right Z.add 0 (flat_map (fun c => match c with Segment _ _ n _ => [n] | Other _ _ => [] end) l) < space b64 ->
  add_segments (pn b64) m (length l) a size = Some (size + fold_right Z.add 0 (flat_map (fun c => match c with Segment _ _ n _ => [n] | Other _ _ => [] end) l)).
Proof.
  assert (E : forall y, 0 <= y < space b64 -> y mod W (pn b64) = y) by (intros y Hy; apply Z.mod_small; rewrite pn_W; exact Hy).
  assert (Pos : forall l, Forall (lcmd_ok b64) l -> 0 <= fold_right Z.add 0 (flat_map (fun c => match c with Segment _ _ n _ => [n] | Other _ _ => [] end) l)).
  { clear. intros l0. induction 1 as [|c l1 Hc Hl IH]; [cbn; lia|]. destruct c; cbn [flat_map app fold_right lcmd_ok] in *; [destruct Hc as (_ & _ & ? & _)|]; lia. }
  induction l as [|c l IH]; intros a size Hf Hh Ha Hs H0 Hz; cbn [add_segments length flat_map] in *; [f_equal; cbn; lia|].
  inversion Hf as [|? ? Fc Fl]; subst. apply holds_app in Hh as [H1 H2]. rewrite app_length, Nat2Z.inj_add in Hs. specialize (Pos l Fl).
  destruct c as [name va n rest|cmd body]; cbn [lcmd_ok] in Fc; unfold lcmd_bytes in H1; unfold lcmd_bytes at 1 in H2; unfold lcmd_bytes at 1 in Hs.
  - destruct Fc as (F1 & F2 & F3 & F4). set (body := name ++ le (ptr b64) va ++ le (ptr b64) n ++ rest) in *.
    assert (Lb : Z.of_nat (length body) = 16 + 2 * Z.of_nat (ptr b64) + Z.of_nat (length rest)) by (unfold body; rewrite !app_length, !le_length, F1; lia).
    rewrite !app_length, !le_length in H2. rewrite !app_length, !le_length in Hs.
    assert (Pt : Z.of_nat (ptr b64) = if b64 then 8 else 4) by (destruct b64; reflexivity).
    apply holds_app in H1 as [A1 H1]. rewrite le_length in H1. apply holds_app in H1 as [A2 H1]. rewrite le_length in H1.
    unfold body in H1. apply holds_app in H1 as [_ H1]. rewrite F1 in H1. apply holds_app in H1 as [_ H1]. rewrite le_length in H1. apply holds_app in H1 as [A3 _].
    rewrite (rd_holds m 4 a (seg_cmd b64) A1) by (unfold seg_cmd; destruct b64; cbn; lia).
    replace (seg_cmd b64 =? (if (pn b64 =? 8)%nat then 0x19 else 1)) with true by (destruct b64; reflexivity).
    rewrite (E (a + (if (pn b64 =? 8)%nat then 32 else 28))) by (destruct b64; cbn [pn Nat.eqb]; lia).
    replace (rd m (a + (if (pn b64 =? 8)%nat then 32 else 28)) (pn b64)) with (Some n).
    2: { symmetry. replace (a + (if (pn b64 =? 8)%nat then 32 else 28)) with (a + Z.of_nat 4 + Z.of_nat 4 + Z.of_nat 16 + Z.of_nat (ptr b64)) by (destruct b64; cbn [pn Nat.eqb ptr]; lia).
         change (pn b64) with (ptr b64). apply rd_holds; [exact A3|]. destruct b64; exact F3. }
    cbn [flat_map app fold_right] in Hz. cbn [flat_map app fold_right]. rewrite (E (size + n)) by lia. rewrite (E (a + 4)) by lia.
    rewrite (rd_holds m 4 (a + 4) (8 + Z.of_nat (length body)) A2) by (change (256 ^ Z.of_nat 4) with (2 ^ 32); destruct b64; lia).
    rewrite (E (a + _)) by lia.
    rewrite (IH (a + (8 + Z.of_nat (length body))) (size + n)); [f_equal; lia|exact Fl| |lia|lia|lia|lia].
    replace (a + (8 + Z.of_nat (length body))) with (a + Z.of_nat (4 + (4 + length body))) by lia. exact H2.
  - destruct Fc as (F1 & F2 & F3).
    rewrite !app_length, !le_length in H2. rewrite !app_length, !le_length in Hs.
    apply holds_app in H1 as [A1 H1]. rewrite le_length in H1. apply holds_app in H1 as [A2 _].
    rewrite (rd_holds m 4 a cmd A1) by exact F1.
    replace (cmd =? (if (pn b64 =? 8)%nat then 0x19 else 1)) with false by (symmetry; apply Z.eqb_neq; intros ->; apply F2; destruct b64; reflexivity).
    cbn [flat_map app fold_right] in Hz. cbn [flat_map app]. rewrite (E (a + 4)) by lia.
    rewrite (rd_holds m 4 (a + 4) (8 + Z.of_nat (length body)) A2) by (change (256 ^ Z.of_nat 4) with (2 ^ 32); lia).
    rewrite (E (a + _)) by lia.
    rewrite (IH (a + (8 + Z.of_nat (length body))) size); [reflexivity|exact Fl| |lia|lia|lia|lia].
    replace (a + (8 + Z.of_nat (length body))) with (a + Z.of_nat (4 + (4 + length body))) by lia. exact H2.
Qed.
Lemma macho_eq b64 h m bias base : macho_loaded b64 h m bias base -> macho_ok b64 h ->
  (macho_library b64 h -> get_macho (pn b64) m (Some base) = Some (Some (LibInfo base (total h) [(base, base + total h)]))) /\
  (~ macho_library b64 h -> get_macho (pn b64) m (Some base) = Some None).
Proof.
  intros [Hb [R1 R2] Hh _] (M1 & M2 & M3 & M4 & M5 & M6).
  assert (E : forall y, 0 <= y < space b64 -> y mod W (pn b64) = y) by (intros y Hy; apply Z.mod_small; rewrite pn_W; exact Hy).
  unfold macho_bytes in Hh, R2. rewrite !app_length, !le_length, !Nat2Z.inj_add in R2.
  apply holds_app in Hh as [A1 Hh]. rewrite le_length in Hh. apply holds_app in Hh as [A2 Hh]. rewrite le_length in Hh. apply holds_app in Hh as [A3 Hh]. rewrite le_length in Hh.
  apply holds_app in Hh as [A4 Hh]. rewrite le_length in Hh. apply holds_app in Hh as [A5 Hh]. rewrite le_length in Hh. apply holds_app in Hh as [_ Hh]. rewrite le_length in Hh.
  apply holds_app in Hh as [_ Hh]. rewrite le_length in Hh. apply holds_app in Hh as [_ A6].
  set (z := if b64 then 32 else 28).
  assert (Ez : base + (if (pn b64 =? 8)%nat then 32 else 28) = base + Z.of_nat 4 + Z.of_nat 4 + Z.of_nat 4 + Z.of_nat 4 + Z.of_nat 4 + Z.of_nat 4 + Z.of_nat 4 + Z.of_nat (length (if b64 then [0; 0; 0; 0] else []))) by (destruct b64; cbn [pn Nat.eqb length]; lia).
  assert (Zz : Z.of_nat (length (if b64 then [0; 0; 0; 0] else [])) = if b64 then 4 else 0) by (destruct b64; reflexivity).
  assert (Tp : 0 <= total h).
  { unfold total, vmsizes. clear -M6. induction M6 as [|c l Hc Hl IH]; [cbn; lia|]. destruct c; cbn [flat_map app fold_right lcmd_ok] in *; [destruct Hc as (_ & _ & ? & _)|]; lia. }
  unfold get_macho. cbv zeta.
  rewrite (rd_holds m 4 base (mh_magic h) A1 M1), (E (base + 4)), (rd_holds m 4 (base + 4) (mh_cputype h) A2 M2), (E (base + 8)) by lia.
  replace (base + 8) with (base + Z.of_nat 4 + Z.of_nat 4) by lia. rewrite (rd_holds m 4 _ (mh_cpusubtype h) A3 M3), (E (base + 12)) by lia.
  replace (base + 12) with (base + Z.of_nat 4 + Z.of_nat 4 + Z.of_nat 4) by lia. rewrite (rd_holds m 4 _ (mh_filetype h) A4 M4), (E (base + 16)) by lia.
  replace (base + 16) with (base + Z.of_nat 4 + Z.of_nat 4 + Z.of_nat 4 + Z.of_nat 4) by lia. rewrite (rd_holds m 4 _ (Z.of_nat (length (cmds h))) A5) by (change (256 ^ Z.of_nat 4) with (2 ^ 32); lia).
  rewrite Ez. rewrite E by lia. rewrite Nat2Z.id.
  rewrite (add_segments_ok b64 m (cmds h) _ 0 M6 A6); [|lia|lia|lia|fold (vmsizes h); fold (total h); lia].
  fold (vmsizes h). fold (total h). rewrite Z.add_0_l, (E (base + total h)) by lia.
  replace (if (pn b64 =? 8)%nat then 0xfeedfacf else 0xfeedface) with (if b64 then 0xfeedfacf else 0xfeedface) by (destruct b64; reflexivity).
  replace (if (pn b64 =? 8)%nat then 0x01000007 else 7) with (if b64 then 0x01000007 else 7) by (destruct b64; reflexivity).
  split.
  - intros (L1 & L2 & L3 & L4). rewrite L1, L2, L3, L4, !Z.eqb_refl. reflexivity.
  - intros N. destruct (Z.eqb_spec (mh_magic h) (if b64 then 0xfeedfacf else 0xfeedface)) as [D1|]; [|reflexivity].
    destruct (Z.eqb_spec (mh_cputype h) (if b64 then 0x01000007 else 7)) as [D2|]; [|reflexivity].
    destruct (Z.eqb_spec (mh_cpusubtype h) 3) as [D3|]; [|reflexivity]. destruct (Z.eqb_spec (mh_filetype h) 6) as [D4|]; [|reflexivity].
    exfalso. apply N. repeat split; assumption.
Qed.
Lemma adjoining_readable m bias l : forall a, adjoining a l -> (forall b n, In (b, n) l -> readable m (bias + b) (bias + b + n)) ->
  readable m (bias + a) (bias + a + fold_right Z.add 0 (map snd l)).
Proof.
  induction l as [|[b n] l IH]; intros a Ha H x Hx; cbn [map fold_right snd adjoining] in *; [lia|].
  destruct Ha as [-> Ha]. destruct (Z.lt_ge_cases x (bias + a + n)) as [C|C].
  - apply (H a n (or_introl eq_refl)). lia.
  - apply (IH (a + n) Ha); [intros b' n' Hi; apply H; right; exact Hi|]. lia.
Qed.
Lemma vmsizes_eq h : vmsizes h = map snd (segments h).
Proof. unfold vmsizes, segments. induction (cmds h) as [|c l IH]; [reflexivity|]. cbn [flat_map]. rewrite map_app, IH. destruct c; reflexivity. Qed.
