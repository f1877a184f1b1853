(** CVector refines sequences. *)
From Coq Require Import List ZArith Bool Arith Lia.
From Verif Require Import ListModel VecModel VecSpec.
Import ListNotations.
Local Open Scope Z_scope.

Section Vec.
Context {T : Type}.
Implicit Types (h : @vheap T) (v : vec) (xs : list T).

Lemma mset_eq {A} (f : nat -> option A) k x : mset f k x k = x.
Proof. unfold mset. rewrite Nat.eqb_refl. reflexivity. Qed.
Lemma mset_ne {A} (f : nat -> option A) k x j : j <> k -> mset f k x j = f j.
Proof. intros N. unfold mset. destruct (Nat.eqb_spec j k); congruence. Qed.

Lemma hset_eq h k x : hset h k x k = x.
Proof. apply mset_eq. Qed.
Lemma hset_ne h k x j : j <> k -> hset h k x j = h j.
Proof. apply mset_ne. Qed.
Lemma bounded_hset h k x : bounded h -> bounded (hset h k x).
Proof. intros B b L. cbn in L. rewrite hset_ne by lia. apply B. lia. Qed.

Lemma rd_ok h b blk i : h b = Some blk -> 0 <= i < b_len blk -> rd h b i = b_at blk i.
Proof.
  intros E R. unfold rd. rewrite E. cbn. destruct (Z.leb_spec 0 i), (Z.ltb_spec i (b_len blk)); try lia. reflexivity.
Qed.

Lemma wr_ok h b blk i x : h b = Some blk -> 0 <= i < b_len blk ->
  exists h' blk', wr h b i x = Some h' /\ h' b = Some blk' /\ b_len blk' = b_len blk /\
    (forall j, b_at blk' j = if j =? i then Some x else b_at blk j) /\
    (forall c, c <> b -> h' c = h c) /\ (bounded h -> bounded h').
Proof.
  intros E R. unfold wr. rewrite E. cbn. destruct (Z.leb_spec 0 i), (Z.ltb_spec i (b_len blk)); try lia. cbn.
  do 2 eexists. split; [reflexivity|]. rewrite hset_eq. split; [reflexivity|]. cbn. split; [reflexivity|].
  split; [reflexivity|]. split; [intros c N; apply hset_ne, N|apply bounded_hset].
Qed.

Lemma copy_ok (n : nat) : forall h dst src bd bs i, dst <> src -> h dst = Some bd -> h src = Some bs ->
  0 <= i -> i + Z.of_nat n <= b_len bd -> i + Z.of_nat n <= b_len bs ->
  (forall j, i <= j < i + Z.of_nat n -> b_at bs j <> None) ->
  exists h' bd', copy_loop n h dst src i = Some h' /\ h' dst = Some bd' /\ b_len bd' = b_len bd /\
    (forall j, b_at bd' j = if (i <=? j) && (j <? i + Z.of_nat n) then b_at bs j else b_at bd j) /\
    (forall c, c <> dst -> h' c = h c) /\ (bounded h -> bounded h').
Proof.
  induction n as [|n IH]; intros h dst src bd bs i N Ed Es L1 L2 L3 H.
  - exists h, bd. cbn. repeat split; auto. intros j. destruct (Z.leb_spec i j), (Z.ltb_spec j (i + 0)); cbn; auto; lia.
  - cbn [copy_loop]. rewrite (rd_ok h src bs i) by (auto; lia).
    destruct (b_at bs i) as [x|] eqn:Ex; [|exfalso; apply (H i); [lia|exact Ex]]. 
    destruct (wr_ok h dst bd i x Ed) as (h1 & b1 & -> & E1 & Len1 & At1 & F1 & W1); [lia|].
    destruct (IH h1 dst src b1 bs (i + 1) N E1) as (h2 & b2 & -> & E2 & Len2 & At2 & F2 & W2);
      [rewrite F1; auto; congruence|lia|lia|lia|intros j J; apply H; lia|].
    exists h2, b2. split; [reflexivity|]. split; [exact E2|]. split; [lia|]. split.
    + intros j. rewrite At2, At1. destruct (Z.leb_spec (i + 1) j), (Z.ltb_spec j (i + 1 + Z.of_nat n)),
        (Z.leb_spec i j), (Z.ltb_spec j (i + Z.of_nat (S n))), (Z.eqb_spec j i); cbn; subst; auto; lia.
    + split; [|auto]. intros c Nc. rewrite F2, F1 by auto. reflexivity.
Qed.

Lemma fill_ok x (n : nat) : forall h b bk i, h b = Some bk -> 0 <= i -> i + Z.of_nat n <= b_len bk ->
  exists h' bk', fill_loop n h b i x = Some h' /\ h' b = Some bk' /\ b_len bk' = b_len bk /\
    (forall j, b_at bk' j = if (i <=? j) && (j <? i + Z.of_nat n) then Some x else b_at bk j) /\
    (forall c, c <> b -> h' c = h c) /\ (bounded h -> bounded h').
Proof.
  induction n as [|n IH]; intros h b bk i E L1 L2.
  - exists h, bk. cbn. repeat split; auto. intros j. destruct (Z.leb_spec i j), (Z.ltb_spec j (i + 0)); cbn; auto; lia.
  - cbn [fill_loop]. destruct (wr_ok h b bk i x E) as (h1 & b1 & -> & E1 & Len1 & At1 & F1 & W1); [lia|].
    destruct (IH h1 b b1 (i + 1) E1) as (h2 & b2 & -> & E2 & Len2 & At2 & F2 & W2); [lia|lia|].
    exists h2, b2. split; [reflexivity|]. split; [exact E2|]. split; [lia|]. split.
    + intros j. rewrite At2, At1. destruct (Z.leb_spec (i + 1) j), (Z.ltb_spec j (i + 1 + Z.of_nat n)),
        (Z.leb_spec i j), (Z.ltb_spec j (i + Z.of_nat (S n))), (Z.eqb_spec j i); cbn; subst; auto; lia.
    + split; [|auto]. intros c Nc. rewrite F2, F1 by auto. reflexivity.
Qed.

Lemma up_ok (n : nat) : forall h b bk p, h b = Some bk -> -1 <= p - Z.of_nat n -> p + 1 < b_len bk ->
  (forall j, p - Z.of_nat n < j <= p -> b_at bk j <> None) ->
  exists h' bk', move_up n h b p = Some h' /\ h' b = Some bk' /\ b_len bk' = b_len bk /\
    (forall j, b_at bk' j = if (p - Z.of_nat n + 1 <? j) && (j <=? p + 1) then b_at bk (j - 1) else b_at bk j) /\
    (forall c, c <> b -> h' c = h c) /\ (bounded h -> bounded h').
Proof.
  induction n as [|n IH]; intros h b bk p E L1 L2 H.
  - exists h, bk. cbn. repeat split; auto. intros j. destruct (Z.ltb_spec (p - 0 + 1) j), (Z.leb_spec j (p + 1)); cbn; auto; lia.
  - cbn [move_up]. rewrite (rd_ok h b bk p) by (auto; lia).
    destruct (b_at bk p) as [x|] eqn:Ex; [|exfalso; apply (H p); [lia|exact Ex]].
    destruct (wr_ok h b bk (p + 1) x E) as (h1 & b1 & -> & E1 & Len1 & At1 & F1 & W1); [lia|].
    destruct (IH h1 b b1 (p - 1) E1) as (h2 & b2 & -> & E2 & Len2 & At2 & F2 & W2); [lia|lia| |].
    { intros j J. rewrite At1. destruct (Z.eqb_spec j (p + 1)); [lia|]. apply H. lia. }
    exists h2, b2. split; [reflexivity|]. split; [exact E2|]. split; [lia|]. split.
    + intros j. rewrite At2. destruct (Z.ltb_spec (p - 1 - Z.of_nat n + 1) j), (Z.leb_spec j (p - 1 + 1)),
        (Z.ltb_spec (p - Z.of_nat (S n) + 1) j), (Z.leb_spec j (p + 1)); cbn; try lia; rewrite ?At1;
        repeat match goal with |- context [?a =? ?b] => destruct (Z.eqb_spec a b) end; try lia; auto.
      subst j. replace (p + 1 - 1) with p by lia. auto.
    + split; [|auto]. intros c Nc. rewrite F2, F1 by auto. reflexivity.
Qed.

Lemma down_ok (n : nat) : forall h b bk p, h b = Some bk -> 1 <= p -> p + Z.of_nat n <= b_len bk ->
  (forall j, p <= j < p + Z.of_nat n -> b_at bk j <> None) ->
  exists h' bk', move_down n h b p = Some h' /\ h' b = Some bk' /\ b_len bk' = b_len bk /\
    (forall j, b_at bk' j = if (p - 1 <=? j) && (j <? p + Z.of_nat n - 1) then b_at bk (j + 1) else b_at bk j) /\
    (forall c, c <> b -> h' c = h c) /\ (bounded h -> bounded h').
Proof.
  induction n as [|n IH]; intros h b bk p E L1 L2 H.
  - exists h, bk. cbn. repeat split; auto. intros j. destruct (Z.leb_spec (p - 1) j), (Z.ltb_spec j (p + 0 - 1)); cbn; auto; lia.
  - cbn [move_down]. rewrite (rd_ok h b bk p) by (auto; lia).
    destruct (b_at bk p) as [x|] eqn:Ex; [|exfalso; apply (H p); [lia|exact Ex]].
    destruct (wr_ok h b bk (p - 1) x E) as (h1 & b1 & -> & E1 & Len1 & At1 & F1 & W1); [lia|].
    destruct (IH h1 b b1 (p + 1) E1) as (h2 & b2 & -> & E2 & Len2 & At2 & F2 & W2); [lia|lia| |].
    { intros j J. rewrite At1. destruct (Z.eqb_spec j (p - 1)); [lia|]. apply H. lia. }
    exists h2, b2. split; [reflexivity|]. split; [exact E2|]. split; [lia|]. split.
    + intros j. rewrite At2. destruct (Z.leb_spec (p + 1 - 1) j), (Z.ltb_spec j (p + 1 + Z.of_nat n - 1)),
        (Z.leb_spec (p - 1) j), (Z.ltb_spec j (p + Z.of_nat (S n) - 1)); cbn; try lia; rewrite ?At1;
        repeat match goal with |- context [?a =? ?b] => destruct (Z.eqb_spec a b) end; try lia; auto.
      subst j. replace (p - 1 + 1) with p by lia. auto.
    + split; [|auto]. intros c Nc. rewrite F2, F1 by auto. reflexivity.
Qed.

(** The array of [v] holds [xs]. *)
Definition elem xs (j : Z) : option T := if j <? 0 then None else nth_error xs (Z.to_nat j).

Lemma elem_some xs j : 0 <= j < Z.of_nat (length xs) <-> elem xs j <> None.
Proof.
  unfold elem. destruct (Z.ltb_spec j 0); [split; [lia|congruence]|].
  rewrite nth_error_Some. lia.
Qed.

Record good h v xs : Prop := Good {
  gd_used : m_used v = Z.of_nat (length xs);
  gd_cap : m_used v <= m_size v;
  gd_null : m_data v = 0%nat -> m_size v = 0;
  gd_blk : m_data v <> 0%nat -> exists bk, h (m_data v) = Some bk /\ b_len bk = m_size v /\
             (forall j, 0 <= j < m_used v -> b_at bk j = elem xs j) }.

(** What an operation on [v] may do to the heap. *)
Record frame h v h' v' : Prop := Frame {
  fr_old : forall b, b <> m_data v -> h b <> None -> h' b = h b;
  fr_new : forall b, b <> m_data v' -> h' b <> None -> h b <> None /\ b <> m_data v;
  fr_own : m_data v' = m_data v \/ h (m_data v') = None;
  fr_nul : h 0%nat = None -> h' 0%nat = None;
  fr_bnd : bounded h -> bounded h' }.

Lemma frame_refl h v v' : m_data v' = m_data v -> frame h v h v'.
Proof. intros E. split; auto. intros b N H. split; [exact H|]. congruence. Qed.

Lemma frame_wr h v h' v' : m_data v' = m_data v -> h (m_data v) <> None -> (forall c, c <> m_data v -> h' c = h c) ->
  (bounded h -> bounded h') -> frame h v h' v'.
Proof.
  intros E L F W. split; auto.
  - intros b N H. rewrite F in H by congruence. split; congruence.
  - intros Z0. rewrite F; [exact Z0|]. intros E0. rewrite <- E0 in L. congruence.
Qed.

Lemma frame_trans h v h1 v1 h2 v2 : frame h v h1 v1 -> frame h1 v1 h2 v2 -> frame h v h2 v2.
Proof.
  intros [A1 B1 C1 D1 W1] [A2 B2 C2 D2 W2]. split.
  - intros b N H. rewrite A2; auto.
    + intros ->. destruct C1 as [C1|C1]; congruence.
    + rewrite A1; auto.
  - intros b N H. destruct (B2 b N H) as [H1 N1]. apply B1; auto.
  - destruct C2 as [->|C2]; [exact C1|].
    destruct (Nat.eq_dec (m_data v2) (m_data v)) as [E|N]; [auto|]. right.
    destruct (h (m_data v2)) eqn:H; [|reflexivity]. rewrite <- H, <- (A1 _ N); [exact C2|congruence].
  - auto.
  - auto.
Qed.

Variable alloc : @vheap T -> nat.
Hypothesis Alloc : allocator alloc.
Lemma alloc_ok h : bounded h -> alloc h <> 0%nat /\ h (alloc h) = None.
Proof. exact (Alloc h). Qed.

Lemma bounded_frame h v h' v' : frame h v h' v' -> bounded h -> bounded h'.
Proof. intros F. apply (fr_bnd _ _ _ _ F). Qed.

(** Making a new array of [n] slots, copying the first [e] elements, freeing the old one. *)
Lemma move_ok h v xs n e : good h v xs -> bounded h -> h 0%nat = None -> 0 < n -> 0 <= e <= n -> e <= m_used v ->
  exists h', (if (m_data v =? 0)%nat then Some (fst (new_arr alloc h n))
    else do z <- copy_loop (Z.to_nat e) (fst (new_arr alloc h n)) (alloc h) (m_data v) 0; del_arr z (m_data v)) = Some h' /\
    good h' (Vec (alloc h) n e) (firstn (Z.to_nat e) xs) /\ frame h v h' (Vec (alloc h) n e).
Proof.
  intros G B Z0 Pn Pe Pu. destruct (alloc_ok h B) as [An Af]. unfold new_arr. cbn [fst].
  assert (Le : Z.of_nat (length (firstn (Z.to_nat e) xs)) = e).
  { rewrite firstn_length, Nat.min_l; [lia|]. rewrite (gd_used _ _ _ G) in Pu. lia. }
  destruct (Nat.eqb_spec (m_data v) 0) as [E0|N0].
  - eexists. split; [reflexivity|]. pose proof (gd_null _ _ _ G E0). pose proof (gd_cap _ _ _ G).
    assert (e = 0) as -> by lia. split.
    + split; cbn [m_data m_size m_used]; auto; try lia.
      intros _. rewrite hset_eq. eexists. split; [reflexivity|]. cbn. split; [reflexivity|]. intros; lia.
    + split; cbn [m_data].
      * intros b N H1. apply hset_ne. intros ->. congruence.
      * intros b N H1. rewrite hset_ne in H1 by exact N. split; [exact H1|]. rewrite E0. intros ->. congruence.
      * auto.
      * intros _. rewrite hset_ne by congruence. exact Z0.
      * apply bounded_hset.
  - destruct (gd_blk _ _ _ G N0) as (bk & Eb & Lb & Ab). pose proof (gd_cap _ _ _ G).
    set (h1 := hset h (alloc h) (Some (Block n (fun _ => None)))).
    assert (Nd : alloc h <> m_data v) by congruence.
    destruct (copy_ok (Z.to_nat e) h1 (alloc h) (m_data v) (Block n (fun _ => None)) bk 0) as (h2 & b2 & E2 & H2 & L2 & A2 & F2 & W2).
    + exact Nd.
    + apply hset_eq.
    + unfold h1. rewrite hset_ne by congruence. exact Eb.
    + lia.
    + cbn. lia.
    + lia.
    + intros j J. rewrite Ab by lia. apply elem_some. rewrite <- (gd_used _ _ _ G). lia.
    + rewrite E2. cbn. unfold del_arr. rewrite F2 by congruence. unfold h1. rewrite hset_ne by congruence. rewrite Eb.
      eexists. split; [reflexivity|]. split.
      * split; cbn [m_data m_size m_used]; auto; try lia.
        intros _. rewrite hset_ne by congruence. exists b2. split; [exact H2|]. split; [cbn in L2; lia|].
        intros j J. rewrite A2. destruct (Z.leb_spec 0 j), (Z.ltb_spec j (0 + Z.of_nat (Z.to_nat e))); try lia. cbn.
        rewrite Ab by lia. unfold elem. destruct (Z.ltb_spec j 0); [lia|].
        rewrite <- (firstn_skipn (Z.to_nat e) xs) at 1. rewrite nth_error_app1 by lia. reflexivity.
      * split; cbn [m_data].
        -- intros b N H1. rewrite hset_ne by exact N.
           assert (b <> alloc h) by congruence. rewrite F2 by assumption. apply hset_ne. assumption.
        -- intros b N H1. destruct (Nat.eq_dec b (m_data v)) as [->|Nb]; [rewrite hset_eq in H1; congruence|].
           rewrite hset_ne in H1 by exact Nb. rewrite F2 in H1 by exact N. unfold h1 in H1. rewrite hset_ne in H1 by exact N. auto.
        -- auto.
        -- intros _. rewrite hset_ne by congruence. rewrite F2 by congruence. unfold h1. rewrite hset_ne by congruence. exact Z0.
        -- intros _. apply bounded_hset, W2, bounded_hset, B.
Qed.

Lemma firstn_used v h xs : good h v xs -> firstn (Z.to_nat (m_used v)) xs = xs.
Proof. intros G. rewrite (gd_used _ _ _ G), Nat2Z.id. apply firstn_all. Qed.

Lemma grow_size_ok (f : nat) : forall need n, 0 < n -> need - n <= Z.of_nat f ->
  exists m, grow_size (S f) need n = Some m /\ need <= m /\ n <= m.
Proof.
  induction f as [|f IH]; intros need n P L; cbn [grow_size]; destruct (Z.gtb_spec need n); try (exists n; split; [reflexivity|lia]).
  - lia.
  - destruct (IH need (n * 2)) as (m & E & A & B); [lia|lia|]. exists m. cbn [grow_size] in E. split; [exact E|lia].
Qed.

Lemma shrink_size_ok (f : nat) : forall used n, 0 < used -> used <= n -> n <= Z.of_nat f ->
  exists m, shrink_size (S f) used n = Some m /\ used <= m /\ m <= n.
Proof.
  induction f as [|f IH]; intros used n P L1 L2; cbn [shrink_size]; [lia|].
  destruct (Z.leb_spec used (n / 2)); [|exists n; split; [reflexivity|lia]].
  assert (n / 2 < n) by (apply Z.div_lt; lia).
  destruct (IH used (n / 2)) as (m & E & A & B); [lia|lia|lia|]. exists m. cbn [shrink_size] in E. split; [exact E|lia].
Qed.

(** Every operation keeps the heap well-formed around the vector. *)
Definition okv h v xs : Prop := good h v xs /\ bounded h /\ h 0%nat = None.

Lemma grow_ok h v xs : okv h v xs ->
  exists h' v', grow alloc h v 1 = Some (h', v') /\ okv h' v' xs /\ frame h v h' v' /\ m_used v' = m_used v /\
    m_used v + 1 <= m_size v' /\ m_data v' <> 0%nat /\ m_data v' <> m_data v.
Proof.
  intros (G & B & Z0). unfold grow. pose proof (gd_used _ _ _ G). pose proof (gd_cap _ _ _ G).
  set (n0 := if m_size v * 2 =? 0 then 8 else m_size v * 2).
  assert (P0 : 0 < n0) by (unfold n0; destruct (Z.eqb_spec (m_size v * 2) 0); lia).
  destruct (grow_size_ok (Z.to_nat (m_used v + 1)) (m_used v + 1) n0 P0) as (n & En & L1 & L2); [lia|].
  rewrite En. cbn.
  destruct (move_ok h v xs n (m_used v) G B Z0) as (h' & E & G' & F); [lia|lia|lia|].
  destruct (alloc_ok h B) as [An Af].
  assert (Nd : alloc h <> m_data v).
  { intros E0. destruct (Nat.eq_dec (m_data v) 0); [congruence|].
    destruct (gd_blk _ _ _ G n1) as (bk & Eb & _). congruence. }
  unfold new_arr in *. cbn [fst] in *.
  rewrite E.
  cbn. exists h', (Vec (alloc h) n (m_used v)). rewrite (firstn_used _ _ _ G) in G'.
  split; [reflexivity|]. split; [|cbn; auto 10].
  split; [exact G'|]. split; [eapply bounded_frame; eauto|]. apply (fr_nul _ _ _ _ F Z0).
Qed.

Lemma grow_if_ok h v xs : okv h v xs ->
  exists h' v', grow_if_needed alloc h v 1 = Some (h', v') /\ okv h' v' xs /\ frame h v h' v' /\ m_used v' = m_used v /\
    m_used v + 1 <= m_size v' /\ m_data v' <> 0%nat.
Proof.
  intros O. unfold grow_if_needed. destruct (Z.geb_spec (m_used v + 1) (m_size v)).
  - destruct (grow_ok h v xs O) as (h' & v' & E & O' & F & U & C & N & _). exists h', v'. auto 10.
  - exists h, v. split; [reflexivity|]. split; [exact O|]. split; [apply frame_refl; reflexivity|].
    split; [reflexivity|]. split; [lia|]. intros E. destruct O as (G & _). pose proof (gd_null _ _ _ G E).
    pose proof (gd_used _ _ _ G). lia.
Qed.

Lemma del_ok h v xs : okv h v xs -> m_data v <> 0%nat ->
  exists h', del_arr h (m_data v) = Some h' /\ bounded h' /\ h' 0%nat = None /\
    (forall u, m_data u = 0%nat -> frame h v h' u).
Proof.
  intros (G & B & Z0) N. destruct (gd_blk _ _ _ G N) as (bk & Eb & _). unfold del_arr. rewrite Eb.
  eexists. split; [reflexivity|].
  assert (F : forall u, m_data u = 0%nat -> frame h v (hset h (m_data v) None) u).
  { intros u U. split.
    - intros b Nb _. apply hset_ne, Nb.
    - intros b Nb H. destruct (Nat.eq_dec b (m_data v)) as [->|Nv]; [rewrite hset_eq in H; congruence|].
      rewrite hset_ne in H by exact Nv. auto.
    - right. rewrite U. exact Z0.
    - intros _. rewrite hset_ne by congruence. exact Z0.
    - apply bounded_hset. }
  pose proof (F (Vec 0%nat 0 0) eq_refl) as F0. split; [eapply bounded_frame; eauto|]. split; [apply (fr_nul _ _ _ _ F0 Z0)|exact F].
Qed.

Lemma change_size_ok h v xs n : okv h v xs -> 0 <= n ->
  (n = 0 -> m_used v = 0) ->
  exists h' v', change_size alloc h v n = Some (h', v') /\ okv h' v' (firstn (Z.to_nat n) xs) /\ frame h v h' v' /\
    m_size v' = n.
Proof.
  intros O P Hz. assert (O' := O). destruct O as (G & B & Z0). unfold change_size.
  pose proof (gd_used _ _ _ G). pose proof (gd_cap _ _ _ G).
  destruct (Z.eqb_spec n (m_size v)) as [->|Nn].
  { exists h, v. split; [reflexivity|]. rewrite firstn_all2 by lia. split; [exact O'|].
    split; [apply frame_refl; reflexivity|reflexivity]. }
  destruct (Z.eqb_spec n 0) as [->|Nz].
  { specialize (Hz eq_refl). destruct xs as [|]; [|cbn in *; lia]. cbn [Z.to_nat firstn].
    destruct (Nat.eqb_spec (m_data v) 0) as [E0|N0].
    { pose proof (gd_null _ _ _ G E0). lia. }
    destruct (del_ok h v [] O' N0) as (h' & -> & B' & Z' & F). cbn.
    exists h', (Vec 0%nat 0 (m_used v)). split; [reflexivity|].
    split; [|split; [apply F; reflexivity|reflexivity]].
    split; [|split; assumption]. split; cbn; auto; try lia; try congruence. }
  destruct (move_ok h v xs n (if m_used v <? n then m_used v else n) G B Z0) as (h' & E & G' & F);
    [lia|destruct (Z.ltb_spec (m_used v) n); lia|destruct (Z.ltb_spec (m_used v) n); lia|].
  unfold new_arr in *. cbn [fst] in *. 
  rewrite E.
  cbn.
  replace (if m_used v >? n then n else m_used v) with (if m_used v <? n then m_used v else n)
    by (destruct (Z.gtb_spec (m_used v) n), (Z.ltb_spec (m_used v) n); lia).
  eexists h', _. split; [reflexivity|]. split; [|split; [exact F|reflexivity]].
  split; [|split; [eapply bounded_frame; eauto|apply (fr_nul _ _ _ _ F Z0)]].
  replace (firstn (Z.to_nat n) xs) with (firstn (Z.to_nat (if m_used v <? n then m_used v else n)) xs); [exact G'|].
  destruct (Z.ltb_spec (m_used v) n); [|reflexivity]. rewrite !firstn_all2 by lia. reflexivity.
Qed.

Lemma free_mem_ok h v xs : okv h v xs ->
  exists h' v', free_mem alloc h v = Some (h', v') /\ okv h' v' xs /\ frame h v h' v'.
Proof.
  intros O. assert (O' := O). destruct O as (G & B & Z0). unfold free_mem.
  pose proof (gd_used _ _ _ G). pose proof (gd_cap _ _ _ G).
  destruct (Nat.eqb_spec (m_data v) 0) as [E0|N0].
  { exists h, v. split; [reflexivity|]. split; [exact O'|apply frame_refl; reflexivity]. }
  destruct (Z.eqb_spec (m_used v) 0) as [U0|Nu].
  { destruct (change_size_ok h v xs 0 O') as (h' & v' & -> & O1 & F & _); [lia|auto|].
    exists h', v'. split; [reflexivity|]. split; [|exact F]. destruct xs; [exact O1|cbn in *; lia]. }
  destruct (shrink_size_ok (Z.to_nat (m_size v)) (m_used v) (m_size v)) as (n & -> & L1 & L2); [lia|lia|lia|].
  destruct (Z.eqb_spec n (m_size v)).
  { exists h, v. split; [reflexivity|]. split; [exact O'|apply frame_refl; reflexivity]. }
  destruct (change_size_ok h v xs n O') as (h' & v' & -> & O1 & F & _); [lia|lia|].
  exists h', v'. split; [reflexivity|]. split; [|exact F]. rewrite firstn_all2 in O1 by lia. exact O1.
Qed.

Lemma clear_ok h v xs : okv h v xs ->
  exists h', clear_vec h v = Some (h', Vec 0%nat 0 0) /\ okv h' (Vec 0%nat 0 0) [] /\ frame h v h' (Vec 0%nat 0 0) /\
    (forall b, b <> m_data v -> h' b = h b).
Proof.
  intros O. assert (O' := O). destruct O as (G & B & Z0). unfold clear_vec.
  destruct (Nat.eqb_spec (m_data v) 0) as [E0|N0].
  - exists h. split; [reflexivity|]. split; [|split; [apply frame_refl; cbn; auto|auto]].
    split; [|auto]. split; cbn; auto; try lia; try congruence.
  - destruct (gd_blk _ _ _ G N0) as (bk & Eb & _).
    destruct (del_ok h v xs O' N0) as (h' & E & B' & Z' & F). rewrite E. cbn. exists h'. split; [reflexivity|].
    split; [|split; [apply F; reflexivity|]].
    + split; [|auto]. split; cbn; auto; try lia; try congruence.
    + intros b Nb. unfold del_arr in E. rewrite Eb in E. inversion E. apply hset_ne, Nb.
Qed.

(** Writing into the array. *)
Lemma okv_write h h' v v' xs bk : okv h v xs -> m_data v' = m_data v -> m_size v' = m_size v -> m_data v <> 0%nat ->
  h' (m_data v) = Some bk -> b_len bk = m_size v -> (forall c, c <> m_data v -> h' c = h c) -> (bounded h -> bounded h') ->
  forall ys, m_used v' = Z.of_nat (length ys) -> m_used v' <= m_size v ->
  (forall j, 0 <= j < m_used v' -> b_at bk j = elem ys j) ->
  okv h' v' ys /\ frame h v h' v'.
Proof.
  intros (G & B & Z0) Ed Es N Eb Lb F W ys U C A.
  destruct (gd_blk _ _ _ G N) as (bk0 & Eb0 & _).
  assert (Fr : frame h v h' v') by (apply frame_wr; auto; congruence).
  split; [|exact Fr]. split; [|split; [eapply bounded_frame; eauto|apply (fr_nul _ _ _ _ Fr Z0)]].
  split; [exact U|lia|congruence|].
  intros _. rewrite Ed, Es. exists bk. auto.
Qed.

Lemma elem_app_l xs ys j : j < Z.of_nat (length xs) -> elem (xs ++ ys) j = elem xs j.
Proof. intros L. unfold elem. destruct (Z.ltb_spec j 0); [reflexivity|]. apply nth_error_app1. lia. Qed.
Lemma elem_app_r xs ys j : Z.of_nat (length xs) <= j -> elem (xs ++ ys) j = elem ys (j - Z.of_nat (length xs)).
Proof.
  intros L. unfold elem. destruct (Z.ltb_spec j 0), (Z.ltb_spec (j - Z.of_nat (length xs)) 0); try lia.
  rewrite nth_error_app2 by lia. f_equal. lia.
Qed.
Lemma elem_nth xs (i : nat) : elem xs (Z.of_nat i) = nth_error xs i.
Proof. unfold elem. destruct (Z.ltb_spec (Z.of_nat i) 0); [lia|]. rewrite Nat2Z.id. reflexivity. Qed.
Lemma elem_cons x xs j : elem (x :: xs) j = if j =? 0 then Some x else elem xs (j - 1).
Proof.
  unfold elem. destruct (Z.eqb_spec j 0) as [->|]; [reflexivity|].
  destruct (Z.ltb_spec j 0), (Z.ltb_spec (j - 1) 0); try lia; auto.
  replace (Z.to_nat j) with (S (Z.to_nat (j - 1))) by lia. reflexivity.
Qed.
Lemma elem_repeat x n j : 0 <= j < Z.of_nat n -> elem (repeat x n) j = Some x.
Proof.
  intros L. unfold elem. destruct (Z.ltb_spec j 0); [lia|]. apply nth_error_repeat. lia.
Qed.
Lemma elem_firstn n xs j : j < Z.of_nat n -> elem (firstn n xs) j = elem xs j.
Proof.
  intros L. destruct (Z.le_gt_cases (Z.of_nat (length xs)) (Z.of_nat n)).
  - rewrite firstn_all2 by lia. reflexivity.
  - rewrite <- (firstn_skipn n xs) at 2. rewrite elem_app_l; [reflexivity|]. rewrite firstn_length. lia.
Qed.

Lemma rd_elem h v xs j : okv h v xs -> 0 <= j < m_used v -> rd h (m_data v) j = elem xs j.
Proof.
  intros (G & _) L. pose proof (gd_cap _ _ _ G). destruct (Nat.eq_dec (m_data v) 0) as [E|N].
  - pose proof (gd_null _ _ _ G E). lia.
  - destruct (gd_blk _ _ _ G N) as (bk & Eb & Lb & Ab). rewrite (rd_ok _ _ bk) by (auto; lia). apply Ab, L.
Qed.

(** [e] denotes [x] and is not in the array of [v]. *)
Definition outside h v (e : @src T) (x : T) : Prop :=
  match e with
  | Val y => y = x
  | At b i => b <> m_data v /\ rd h b i = Some x
  end.

Lemma outside_frame h v h' v' e x : frame h v h' v' -> outside h v e x -> get_src h' e = Some x /\ outside h' v' e x.
Proof.
  intros F. destruct e as [y|b i]; cbn [outside get_src].
  - intros ->. auto.
  - intros [N E]. assert (h b <> None) by (unfold rd in E; destruct (h b); [discriminate|discriminate]).
    assert (H1 : h' b = h b) by (apply (fr_old _ _ _ _ F); assumption).
    assert (rd h' b i = rd h b i) by (unfold rd; rewrite H1; reflexivity).
    split; [congruence|]. split; [|congruence]. destruct (fr_own _ _ _ _ F) as [E'|E']; congruence.
Qed.

Lemma push_ok h v xs e x : okv h v xs -> outside h v e x ->
  exists h' v', push_vec alloc h v e = Some (h', v') /\ okv h' v' (xs ++ [x]) /\ frame h v h' v'.
Proof.
  intros O Out. unfold push_vec. destruct (grow_if_ok h v xs O) as (h1 & v1 & -> & O1 & F1 & U1 & C1 & N1).
  cbn [fst]. destruct (outside_frame _ _ _ _ _ _ F1 Out) as [-> _].
  pose proof O1 as (G1 & _). destruct (gd_blk _ _ _ G1 N1) as (bk & Eb & Lb & Ab). pose proof (gd_used _ _ _ G1).
  destruct (wr_ok h1 (m_data v1) bk (m_used v1) x Eb) as (h2 & b2 & -> & E2 & L2 & A2 & F2 & W2); [lia|].
  destruct (okv_write h1 h2 v1 (Vec (m_data v1) (m_size v1) (m_used v1 + 1)) xs b2 O1 eq_refl eq_refl N1 E2) with (ys := xs ++ [x])
    as [O2 F3]; auto; cbn [m_used]; try lia.
  - rewrite app_length. cbn. lia.
  - intros j J. rewrite A2. destruct (Z.eqb_spec j (m_used v1)) as [->|].
    + rewrite elem_app_r by lia. rewrite H, Z.sub_diag. reflexivity.
    + rewrite elem_app_l by lia. apply Ab. lia.
  - eexists _, _. split; [reflexivity|]. split; [exact O2|]. eapply frame_trans; eauto.
Qed.

Lemma pop_ok h v xs x : okv h v (xs ++ [x]) -> Z.of_nat (length xs) < size_max ->
  exists h' v', pop_vec alloc h v = Some (h', v') /\ okv h' v' xs /\ frame h v h' v'.
Proof.
  intros O L. unfold pop_vec. pose proof O as (G & B & Z0). pose proof (gd_used _ _ _ G) as U. rewrite app_length in U. cbn in U.
  rewrite Z.mod_small by lia. pose proof (gd_cap _ _ _ G).
  assert (O1 : okv h (Vec (m_data v) (m_size v) (m_used v - 1)) xs).
  { split; [|auto]. split; cbn [m_data m_size m_used]; try lia; [apply (gd_null _ _ _ G)|].
    intros N. destruct (gd_blk _ _ _ G N) as (bk & Eb & Lb & Ab). exists bk. split; [exact Eb|]. split; [exact Lb|].
    intros j J. rewrite Ab by lia. apply elem_app_l. lia. }
  destruct (free_mem_ok _ _ _ O1) as (h' & v' & -> & O2 & F). exists h', v'. split; [reflexivity|]. split; [exact O2|].
  eapply frame_trans; [|exact F]. apply frame_refl. reflexivity.
Qed.

Lemma resize_ok h v xs (n : nat) x : okv h v xs ->
  exists h' v', resize_vec alloc h v (Z.of_nat n) x = Some (h', v') /\
    okv h' v' (firstn n xs ++ repeat x (n - length xs)) /\ frame h v h' v'.
Proof.
  intros O. unfold resize_vec. pose proof O as (G & B & Z0). pose proof (gd_used _ _ _ G) as U.
  destruct (Nat.eq_dec n 0) as [->|Nn].
  { cbn [Z.of_nat firstn Nat.sub repeat app]. unfold change_size.
    destruct (Z.eqb_spec 0 (m_size v)) as [E|N].
    - pose proof (gd_cap _ _ _ G). cbn. replace (Z.to_nat (- m_used v)) with 0%nat by lia. cbn.
      eexists _, _. split; [reflexivity|]. split; [|apply frame_refl; reflexivity].
      split; [|auto]. split; cbn [m_data m_size m_used length]; try lia. intros N.
      destruct (gd_blk _ _ _ G N) as (bk & Eb & Lb & Ab). exists bk. split; [exact Eb|]. split; [exact Lb|]. intros; lia.
    - cbn [Z.eqb]. destruct (Nat.eqb_spec (m_data v) 0) as [E0|N0].
      { pose proof (gd_null _ _ _ G E0). lia. }
      destruct (del_ok h v xs O N0) as (h' & -> & B' & Z' & F). cbn -[Z.sub].
      replace (Z.to_nat (0 - m_used v)) with 0%nat by lia. cbn.
      eexists _, _. split; [reflexivity|]. split; [|apply F; reflexivity].
      split; [|auto]. split; cbn; auto; try lia; try congruence. }
  destruct (change_size_ok h v xs (Z.of_nat n) O) as (h1 & v1 & -> & O1 & F1 & S1); [lia|lia|]. cbn [fst].
  rewrite Nat2Z.id in O1. pose proof O1 as (G1 & B1 & Z1). pose proof (gd_used _ _ _ G1) as U1. rewrite firstn_length in U1.
  assert (N1 : m_data v1 <> 0%nat) by (intros E; pose proof (gd_null _ _ _ G1 E); lia).
  destruct (gd_blk _ _ _ G1 N1) as (bk & Eb & Lb & Ab).
  destruct (fill_ok x (Z.to_nat (Z.of_nat n - m_used v1)) h1 (m_data v1) bk (m_used v1) Eb) as (h2 & b2 & -> & E2 & L2 & A2 & F2 & W2); [lia|lia|].
  destruct (okv_write h1 h2 v1 (Vec (m_data v1) (m_size v1) (Z.of_nat n)) (firstn n xs) b2 O1 eq_refl eq_refl N1 E2) with (ys := firstn n xs ++ repeat x (n - length xs))
    as [O2 F3]; auto; cbn [m_used]; try lia.
  - rewrite app_length, firstn_length, repeat_length. lia.
  - intros j J. rewrite A2. destruct (Z.leb_spec (m_used v1) j).
    + destruct (Z.ltb_spec j (m_used v1 + Z.of_nat (Z.to_nat (Z.of_nat n - m_used v1)))); [|lia]. cbn.
      rewrite elem_app_r by (rewrite firstn_length; lia). rewrite elem_repeat; [reflexivity|]. rewrite firstn_length. lia.
    + cbn. rewrite elem_app_l by (rewrite firstn_length; lia). apply Ab. lia.
  - eexists _, _. split; [reflexivity|]. split; [exact O2|]. eapply frame_trans; eauto.
Qed.

Lemma reserve_ok h v xs (n : nat) : okv h v xs ->
  exists h' v', reserve alloc h v (Z.of_nat n) = Some (h', v') /\ okv h' v' xs /\ frame h v h' v'.
Proof.
  intros O. unfold reserve. pose proof O as (G & B & Z0). pose proof (gd_used _ _ _ G) as U. pose proof (gd_cap _ _ _ G).
  destruct (Z.gtb_spec (Z.of_nat n) (m_size v)).
  - destruct (change_size_ok h v xs (Z.of_nat n) O) as (h1 & v1 & -> & O1 & F1 & S1); [lia|lia|].
    rewrite firstn_all2 in O1 by lia. exists h1, v1. auto.
  - exists h, v. split; [reflexivity|]. split; [exact O|]. apply frame_refl. reflexivity.
Qed.

Lemma set_ok h v xs w ys x : okv h v (xs ++ w :: ys) ->
  exists h', wr h (m_data v) (Z.of_nat (length xs)) x = Some h' /\ okv h' v (xs ++ x :: ys) /\ frame h v h' v.
Proof.
  intros O. pose proof O as (G & B & Z0). pose proof (gd_used _ _ _ G) as U. pose proof (gd_cap _ _ _ G). rewrite app_length in U. cbn [length] in U.
  assert (N : m_data v <> 0%nat) by (intros E; pose proof (gd_null _ _ _ G E); lia).
  destruct (gd_blk _ _ _ G N) as (bk & Eb & Lb & Ab).
  destruct (wr_ok h (m_data v) bk (Z.of_nat (length xs)) x Eb) as (h2 & b2 & -> & E2 & L2 & A2 & F2 & W2); [lia|].
  destruct (okv_write h h2 v v _ b2 O eq_refl eq_refl N E2) with (ys := xs ++ x :: ys)
    as [O2 F3]; auto; try lia.
  - rewrite app_length. cbn [length]. lia.
  - intros j J. rewrite A2. destruct (Z.eqb_spec j (Z.of_nat (length xs))) as [->|].
    + rewrite elem_app_r by lia. rewrite Z.sub_diag. reflexivity.
    + rewrite Ab by lia. destruct (Z.lt_ge_cases j (Z.of_nat (length xs))).
      * rewrite !elem_app_l by lia. reflexivity.
      * rewrite !elem_app_r by lia. rewrite !elem_cons. destruct (Z.eqb_spec (j - Z.of_nat (length xs)) 0); [lia|reflexivity].
  - eexists. split; [reflexivity|]. auto.
Qed.

Lemma insert_ok h v xs ys e x : okv h v (xs ++ ys) -> outside h v e x ->
  exists h' v', insert_vec alloc h v (Z.of_nat (length xs)) e = Some (h', v', Some (Z.of_nat (length xs))) /\
    okv h' v' (xs ++ x :: ys) /\ frame h v h' v'.
Proof.
  intros O Out. unfold insert_vec. pose proof O as (G & _ & _). pose proof (gd_used _ _ _ G) as U. rewrite app_length in U.
  destruct (Z.ltb_spec (Z.of_nat (length xs)) 0); [lia|]. destruct (Z.gtb_spec (Z.of_nat (length xs)) (m_used v)); [lia|]. cbn [orb].
  destruct (grow_if_ok h v _ O) as (h1 & v1 & -> & O1 & F1 & U1 & C1 & N1). cbn [m_data m_size m_used].
  destruct (outside_frame _ _ _ _ _ _ F1 Out) as [_ Out1].
  pose proof O1 as (G1 & _). destruct (gd_blk _ _ _ G1 N1) as (bk & Eb & Lb & Ab).
  destruct (up_ok (Z.to_nat (m_used v1 + 1 - 1 - Z.of_nat (length xs))) h1 (m_data v1) bk (m_used v1 + 1 - 2) Eb)
    as (h2 & b2 & -> & E2 & L2 & A2 & F2 & W2); [lia|lia| |].
  { intros j J. rewrite Ab by lia. apply elem_some. rewrite app_length. lia. }
  assert (Fr2 : frame h1 v1 h2 v1) by (apply frame_wr; auto; congruence).
  destruct (outside_frame _ _ _ _ _ _ Fr2 Out1) as [-> _].
  destruct (wr_ok h2 (m_data v1) b2 (Z.of_nat (length xs)) x E2) as (h3 & b3 & -> & E3 & L3 & A3 & F3 & W3); [lia|].
  destruct (okv_write h1 h3 v1 (Vec (m_data v1) (m_size v1) (m_used v1 + 1)) _ b3 O1 eq_refl eq_refl N1 E3) with (ys := xs ++ x :: ys)
    as [O2 F4]; cbn [m_used]; try lia.
  - intros c Nc. rewrite F3, F2 by auto. reflexivity.
  - auto.
  - rewrite app_length. cbn [length]. lia.
  - intros j J. rewrite A3, A2. destruct (Z.eqb_spec j (Z.of_nat (length xs))) as [->|].
    + rewrite elem_app_r by lia. rewrite Z.sub_diag. reflexivity.
    + destruct (Z.lt_ge_cases j (Z.of_nat (length xs))).
      * match goal with |- context [?a && ?b] => replace (a && b) with false
          by (symmetry; apply andb_false_iff; left; apply Z.ltb_ge; lia) end.
        rewrite Ab by lia. rewrite !elem_app_l by lia. reflexivity.
      * match goal with |- context [?a && ?b] => replace (a && b) with true
          by (symmetry; apply andb_true_iff; split; [apply Z.ltb_lt|apply Z.leb_le]; lia) end.
        rewrite Ab by lia. rewrite !elem_app_r by lia. rewrite elem_cons.
        destruct (Z.eqb_spec (j - Z.of_nat (length xs)) 0); [lia|]. f_equal. lia.
  - eexists _, _. split; [reflexivity|]. split; [exact O2|]. eapply frame_trans; eauto.
Qed.

Lemma erase_ok h v xs x ys : okv h v (xs ++ x :: ys) ->
  exists h' v', erase_vec alloc h v (Z.of_nat (length xs)) = Some (h', v', Some (Z.of_nat (length xs))) /\
    okv h' v' (xs ++ ys) /\ frame h v h' v'.
Proof.
  intros O. unfold erase_vec. pose proof O as (G & B & Z0). pose proof (gd_used _ _ _ G) as U. rewrite app_length in U. cbn [length] in U.
  pose proof (gd_cap _ _ _ G).
  destruct (Z.ltb_spec (Z.of_nat (length xs)) 0); [lia|]. destruct (Z.geb_spec (Z.of_nat (length xs)) (m_used v)); [lia|]. cbn [orb].
  assert (N : m_data v <> 0%nat) by (intros E; pose proof (gd_null _ _ _ G E); lia).
  destruct (gd_blk _ _ _ G N) as (bk & Eb & Lb & Ab).
  assert (K : exists h1 b1, (if m_used v >? 1
      then move_down (Z.to_nat (m_used v - (Z.of_nat (length xs) + 1))) h (m_data v) (Z.of_nat (length xs) + 1) else Some h) = Some h1 /\
      h1 (m_data v) = Some b1 /\ b_len b1 = b_len bk /\ (forall c, c <> m_data v -> h1 c = h c) /\ (bounded h -> bounded h1) /\
      (forall j, 0 <= j < m_used v - 1 -> b_at b1 j = elem (xs ++ ys) j)).
  { destruct (Z.gtb_spec (m_used v) 1).
    - destruct (down_ok (Z.to_nat (m_used v - (Z.of_nat (length xs) + 1))) h (m_data v) bk (Z.of_nat (length xs) + 1) Eb)
        as (h1 & b1 & E1 & H1' & L1 & A1 & F1 & W1); [lia|lia| |].
      { intros j J. rewrite Ab by lia. apply elem_some. rewrite app_length. cbn [length]. lia. }
      exists h1, b1. repeat (split; [assumption|]). intros j J. rewrite A1.
      destruct (Z.lt_ge_cases j (Z.of_nat (length xs))).
      + match goal with |- context [?a && ?b] => replace (a && b) with false
          by (symmetry; apply andb_false_iff; left; apply Z.leb_gt; lia) end.
        rewrite Ab by lia. rewrite !elem_app_l by lia. reflexivity.
      + match goal with |- context [?a && ?b] => replace (a && b) with true
          by (symmetry; apply andb_true_iff; split; [apply Z.leb_le|apply Z.ltb_lt]; lia) end.
        rewrite Ab by lia. rewrite !elem_app_r by lia. rewrite elem_cons.
        destruct (Z.eqb_spec (j + 1 - Z.of_nat (length xs)) 0); [lia|]. f_equal. lia.
    - exists h, bk. repeat (split; [auto|]). intros; lia. }
  destruct K as (h1 & b1 & -> & E1 & L1 & F1 & W1 & A1).
  destruct (okv_write h h1 v (Vec (m_data v) (m_size v) (m_used v - 1)) _ b1 O eq_refl eq_refl N E1) with (ys := xs ++ ys)
    as [O2 F4]; cbn [m_used]; auto; try lia.
  { rewrite app_length. lia. }
  destruct (free_mem_ok _ _ _ O2) as (h2 & v2 & -> & O3 & F3). eexists _, _. split; [reflexivity|]. split; [exact O3|].
  eapply frame_trans; eauto.
Qed.

(** Copying from another vector. *)
Lemma copy_from_ok h v xs w n : okv h w xs -> h (m_data v) <> None -> m_data v <> m_data w ->
  (forall bk, h (m_data v) = Some bk -> b_len bk = n) -> m_data v <> 0%nat -> m_used w <= n -> h 0%nat = None -> bounded h ->
  exists h', copy_loop (Z.to_nat (m_used w)) h (m_data v) (m_data w) 0 = Some h' /\
    okv h' (Vec (m_data v) n (m_used w)) xs /\ (forall c, c <> m_data v -> h' c = h c) /\ (bounded h -> bounded h').
Proof.
  intros O L N Hb N0 Ln Z0 B. pose proof O as (G & _ & _). pose proof (gd_used _ _ _ G) as U. pose proof (gd_cap _ _ _ G).
  destruct (h (m_data v)) as [bd|] eqn:Ed; [|contradiction]. specialize (Hb bd eq_refl).
  assert (K : exists h' b', copy_loop (Z.to_nat (m_used w)) h (m_data v) (m_data w) 0 = Some h' /\ h' (m_data v) = Some b' /\
     b_len b' = n /\ (forall j, 0 <= j < m_used w -> b_at b' j = elem xs j) /\ (forall c, c <> m_data v -> h' c = h c) /\ (bounded h -> bounded h')).
  { destruct (Nat.eq_dec (m_data w) 0) as [E|Nw].
    - pose proof (gd_null _ _ _ G E). replace (Z.to_nat (m_used w)) with 0%nat by lia. exists h, bd. split; [reflexivity|].
      split; [exact Ed|]. split; [exact Hb|]. split; [intros; lia|split; auto].
    - destruct (gd_blk _ _ _ G Nw) as (bs & Es & Ls & As).
      destruct (copy_ok (Z.to_nat (m_used w)) h (m_data v) (m_data w) bd bs 0 N Ed Es) as (h' & b' & E1 & E2 & L2 & A2 & F2 & W2);
        [lia|lia|lia| |].
      { intros j J. rewrite As by lia. apply elem_some. lia. }
      exists h', b'. split; [exact E1|]. split; [exact E2|]. split; [lia|]. split; [|split; [exact F2|exact W2]].
      intros j J. rewrite A2. destruct (Z.leb_spec 0 j), (Z.ltb_spec j (0 + Z.of_nat (Z.to_nat (m_used w)))); try lia. cbn. apply As. lia. }
  destruct K as (h' & b' & E1 & E2 & L2 & A2 & F2 & W2). exists h'. split; [exact E1|]. split; [|split; [exact F2|exact W2]].
  split; [|split].
  - split; cbn [m_data m_size m_used]; auto; try lia; try congruence. intros _. exists b'. auto.
  - exact (W2 B).
  - rewrite F2 by auto. exact Z0.
Qed.

Lemma copy_ctor_ok h w xs : okv h w xs ->
  exists h' v', copy_ctor alloc h w = Some (h', v') /\ okv h' v' xs /\ frame h vec0 h' v'.
Proof.
  intros O. pose proof O as (G & B & Z0). unfold copy_ctor, new_arr. destruct (alloc_ok h B) as [An Af].
  set (h1 := hset h (alloc h) (Some (Block (m_used w) (fun _ => None)))).
  assert (Nw : alloc h <> m_data w).
  { intros E. destruct (Nat.eq_dec (m_data w) 0); [congruence|]. destruct (gd_blk _ _ _ G n) as (bk & Eb & _). congruence. }
  assert (F1 : frame h vec0 h1 (Vec (alloc h) (m_used w) (m_used w))).
  { split; cbn [m_data vec0].
    - intros b N H. apply hset_ne. congruence.
    - intros b N H. unfold h1 in H. rewrite hset_ne in H by exact N. split; [exact H|]. congruence.
    - auto.
    - intros _. unfold h1. rewrite hset_ne by congruence. exact Z0.
    - apply bounded_hset. }
  assert (B1 : bounded h1) by (eapply bounded_frame; eauto).
  assert (Z1 : h1 0%nat = None) by (apply (fr_nul _ _ _ _ F1 Z0)).
  assert (O1 : okv h1 w xs).
  { split; [|auto]. destruct G as [G1 G2 G3 G4]. split; auto. intros N. destruct (G4 N) as (bk & Eb & R). exists bk.
    split; [|exact R]. unfold h1. rewrite hset_ne by congruence. exact Eb. }
  destruct (copy_from_ok h1 (Vec (alloc h) (m_used w) (m_used w)) xs w (m_used w) O1) as (h2 & E2 & O2 & F2 & W2); cbn [m_data]; auto; try lia.
  - unfold h1. rewrite hset_eq. discriminate.
  - intros bk. unfold h1. rewrite hset_eq. intros E. inversion E. reflexivity.
  - cbn [m_data] in E2. rewrite E2. cbn. eexists _, _. split; [reflexivity|]. split; [exact O2|].
    eapply frame_trans; [exact F1|]. apply frame_wr; cbn [m_data]; auto. unfold h1. rewrite hset_eq. discriminate.
Qed.

Lemma assign_ok h v w xs ys : okv h v ys -> okv h w xs -> (m_data v = m_data w -> m_data w = 0%nat) ->
  exists h' v', assign_vec alloc h v w = Some (h', v') /\ okv h' v' xs /\ frame h v h' v'.
Proof.
  intros Ov Ow D. unfold assign_vec. destruct (clear_ok h v ys Ov) as (h1 & -> & O1 & F1 & H1).
  pose proof Ow as (Gw & Bw & Z0). pose proof O1 as (_ & B1 & Z1).
  pose proof (gd_used _ _ _ Gw) as Uw. pose proof (gd_cap _ _ _ Gw) as Cw.
  assert (Ow1 : okv h1 w xs).
  { split; [|auto]. destruct Gw as [G1 G2 G3 G4]. split; auto. intros N. destruct (G4 N) as (bk & Eb & R). exists bk.
    split; [|exact R]. rewrite H1; [exact Eb|]. intros E. apply N, D. congruence. }
  cbn [fst]. destruct (change_size_ok h1 (Vec 0%nat 0 0) [] (m_used w) O1) as (h2 & v2 & E2 & O2 & F2 & S2); [lia|reflexivity|].
  rewrite E2. cbn [fst]. rewrite firstn_nil in O2. pose proof O2 as (G2 & B2 & Z2).
  assert (Nw2 : m_data w <> 0%nat -> h2 (m_data w) = h1 (m_data w)).
  { intros N. apply (fr_old _ _ _ _ F2); [exact N|]. pose proof Ow1 as (Gw1 & _). destruct (gd_blk _ _ _ Gw1 N) as (bk & Eb & _). congruence. }
  assert (Ow2 : okv h2 w xs).
  { split; [|auto]. pose proof Ow1 as ([G1' G2' G3' G4'] & _). split; auto. intros N. destruct (G4' N) as (bk & Eb & R). exists bk.
    split; [|exact R]. rewrite Nw2; [exact Eb|exact N]. }
  destruct (Nat.eq_dec (m_data v2) 0) as [E0|N0].
  - pose proof (gd_null _ _ _ G2 E0) as Hs. rewrite S2 in Hs. rewrite Hs. cbn.
    eexists _, _. split; [reflexivity|].
    assert (xs = []) as -> by (destruct xs; [reflexivity|cbn in *; lia]).
    split.
    + split; [|auto]. split; cbn [m_data m_size m_used length]; try lia.
    + eapply frame_trans; [exact F1|]. eapply frame_trans; [exact F2|]. apply frame_refl. reflexivity.
  - destruct (gd_blk _ _ _ G2 N0) as (bk & Eb & Lb & _).
    destruct (copy_from_ok h2 v2 xs w (m_size v2) Ow2) as (h3 & E3 & O3 & F3 & W3); auto; try lia; try congruence.
    + intros E. pose proof Ow1 as (Gw1 & _).
      assert (Nw : m_data w <> 0%nat) by congruence.
      destruct (gd_blk _ _ _ Gw1 Nw) as (bw & Ew & _).
      destruct (fr_own _ _ _ _ F2) as [K|K]; cbn [m_data] in K; congruence.
    + rewrite E3. cbn. eexists _, _. split; [reflexivity|]. split; [exact O3|].
      eapply frame_trans; [exact F1|]. eapply frame_trans; [exact F2|]. apply frame_wr; auto. congruence.
Qed.


(** The whole program. *)
Record vrel (s : @vsys T) (sp : seqs) : Prop := VRel {
  vr_some : forall l xs, sp l = Some xs -> exists v, v_vecs s l = Some v /\ good (v_heap s) v xs;
  vr_none : forall l, sp l = None -> v_vecs s l = None;
  vr_disj : forall l m v w, l <> m -> v_vecs s l = Some v -> v_vecs s m = Some w -> m_data v = m_data w -> m_data v = 0%nat;
  vr_leak : forall b, v_heap s b <> None -> exists l v, v_vecs s l = Some v /\ m_data v = b;
  vr_bound : bounded (v_heap s);
  vr_null : v_heap s 0%nat = None }.

Lemma vrel_okv s sp l xs : vrel s sp -> sp l = Some xs -> exists v, v_vecs s l = Some v /\ okv (v_heap s) v xs.
Proof.
  intros R E. destruct (vr_some _ _ R _ _ E) as (v & Ev & G). exists v. split; [exact Ev|].
  split; [exact G|]. split; [apply (vr_bound _ _ R)|apply (vr_null _ _ R)].
Qed.

Lemma good_frame h v h' v' w ys : frame h v h' v' -> good h w ys -> (m_data v = m_data w -> m_data w = 0%nat) -> good h' w ys.
Proof.
  intros F [A B C D] H. split; auto. intros N. destruct (D N) as (bk & Eb & R). exists bk. split; [|exact R].
  rewrite (fr_old _ _ _ _ F); [exact Eb| |congruence]. intros E. apply N, H. congruence.
Qed.

(** The vector [l] becomes [v'] holding [ys]. *)
Lemma vrel_put s sp l v h' v' ys : vrel s sp -> (v_vecs s l = Some v \/ v = vec0 /\ v_vecs s l = None) ->
  okv h' v' ys -> frame (v_heap s) v h' v' ->
  vrel (VSys h' (mset (v_vecs s) l (Some v'))) (mset sp l (Some ys)).
Proof.
  intros R Ev (G' & B' & Z') F.
  assert (D : forall m w, m <> l -> v_vecs s m = Some w -> m_data v = m_data w -> m_data w = 0%nat).
  { intros m w N Ew E. destruct Ev as [Ev|[-> Ev]]; [|cbn in E; congruence].
    rewrite <- E. eapply (vr_disj _ _ R) with (l := l) (m := m); eauto. }
  assert (K : forall m w, m <> l -> v_vecs s m = Some w -> m_data v' = m_data w -> m_data w = 0%nat).
  { intros m w N Ew E. destruct (fr_own _ _ _ _ F) as [E'|E']; [apply (D m w); congruence|].
    destruct (Nat.eq_dec (m_data w) 0) as [|N0]; [assumption|]. exfalso.
    destruct (sp m) as [zs|] eqn:Em; [|rewrite (vr_none _ _ R _ Em) in Ew; discriminate].
    destruct (vr_some _ _ R _ _ Em) as (w' & Ew' & Gw). rewrite Ew in Ew'. inversion Ew'; subst w'.
    destruct (gd_blk _ _ _ Gw N0) as (bk & Eb & _). congruence. }
  split; cbn [v_heap v_vecs].
  - intros m xs E. destruct (Nat.eq_dec m l) as [->|N].
    + rewrite mset_eq in E. inversion E; subst. exists v'. rewrite mset_eq. auto.
    + rewrite mset_ne in E by exact N. destruct (vr_some _ _ R _ _ E) as (w & Ew & Gw). exists w. rewrite mset_ne by exact N. split; [exact Ew|].
      eapply good_frame; [exact F|exact Gw|]. apply (D m w N Ew).
  - intros m E. destruct (Nat.eq_dec m l) as [->|N]; [rewrite mset_eq in E; discriminate|].
    rewrite mset_ne in E by exact N. rewrite mset_ne by exact N. apply (vr_none _ _ R _ E).
  - intros a b u w N E1 E2 E. destruct (Nat.eq_dec a l) as [->|Na]; destruct (Nat.eq_dec b l) as [->|Nb]; try congruence.
    + rewrite mset_eq in E1. inversion E1; subst u. rewrite mset_ne in E2 by exact Nb. rewrite E. apply (K b w Nb E2 E).
    + rewrite mset_eq in E2. inversion E2; subst w. rewrite mset_ne in E1 by exact Na. apply (K a u Na E1). congruence.
    + rewrite mset_ne in E1, E2 by assumption. eapply (vr_disj _ _ R) with (l := a) (m := b); eauto.
  - intros b H. destruct (Nat.eq_dec b (m_data v')) as [->|N]; [exists l, v'; rewrite mset_eq; auto|].
    destruct (fr_new _ _ _ _ F b N H) as [H1 N1]. destruct (vr_leak _ _ R b H1) as (m & w & Ew & Ed).
    assert (m <> l) by (intros ->; destruct Ev as [Ev|[_ Ev]]; congruence).
    exists m, w. rewrite mset_ne by assumption. auto.
  - exact B'.
  - exact Z'.
Qed.

Lemma vrel_same s sp l xs v h' v' : vrel s sp -> sp l = Some xs -> v_vecs s l = Some v ->
  okv h' v' xs -> frame (v_heap s) v h' v' -> vrel (VSys h' (mset (v_vecs s) l (Some v'))) sp.
Proof.
  intros R E Ev O F. pose proof (vrel_put s sp l v h' v' xs R (or_introl Ev) O F) as [A B C D G H].
  split; auto.
  - intros m ys Em. apply A. destruct (Nat.eq_dec m l) as [->|N]; [rewrite mset_eq; congruence|]. rewrite mset_ne by exact N. exact Em.
  - intros m Em. apply B. destruct (Nat.eq_dec m l) as [->|N]; [congruence|]. rewrite mset_ne by exact N. exact Em.
Qed.

Lemma vrel_destroy s sp l v xs h' : vrel s sp -> v_vecs s l = Some v -> sp l = Some xs ->
  okv h' vec0 [] -> frame (v_heap s) v h' vec0 ->
  vrel (VSys h' (mset (v_vecs s) l None)) (mset sp l None).
Proof.
  intros R Ev El (G' & B' & Z') F.
  assert (D : forall m w, m <> l -> v_vecs s m = Some w -> m_data v = m_data w -> m_data w = 0%nat).
  { intros m w N Ew E. rewrite <- E. eapply (vr_disj _ _ R) with (l := l) (m := m); eauto. }
  split; cbn [v_heap v_vecs].
  - intros m ys E. destruct (Nat.eq_dec m l) as [->|N]; [rewrite mset_eq in E; discriminate|].
    rewrite mset_ne in E by exact N. destruct (vr_some _ _ R _ _ E) as (w & Ew & Gw). exists w. rewrite mset_ne by exact N. split; [exact Ew|].
    eapply good_frame; [exact F|exact Gw|]. apply (D m w N Ew).
  - intros m E. destruct (Nat.eq_dec m l) as [->|N]; [apply mset_eq|].
    rewrite mset_ne in E by exact N. rewrite mset_ne by exact N. apply (vr_none _ _ R _ E).
  - intros a b u w N E1 E2 E. destruct (Nat.eq_dec a l) as [->|Na]; [rewrite mset_eq in E1; discriminate|].
    destruct (Nat.eq_dec b l) as [->|Nb]; [rewrite mset_eq in E2; discriminate|].
    rewrite mset_ne in E1, E2 by assumption. eapply (vr_disj _ _ R) with (l := a) (m := b); eauto.
  - intros b H. destruct (Nat.eq_dec b 0) as [->|N]; [congruence|].
    destruct (fr_new _ _ _ _ F b N H) as [H1 N1]. destruct (vr_leak _ _ R b H1) as (m & w & Ew & Ed).
    assert (m <> l) by (intros ->; congruence).
    exists m, w. rewrite mset_ne by assumption. auto.
  - exact B'.
  - exact Z'.
Qed.

Lemma at_ok h v xs i x : okv h v xs -> nth_error xs i = Some x -> at_idx v (Z.of_nat i) = Some (Z.of_nat i) /\ rd h (m_data v) (Z.of_nat i) = Some x.
Proof.
  intros O E. assert (L : (i < length xs)%nat) by (apply nth_error_Some; congruence).
  pose proof O as (G & _). pose proof (gd_used _ _ _ G) as U. unfold at_idx.
  destruct (Z.gtb_spec (Z.of_nat i) (m_used v)); [lia|]. split; [reflexivity|].
  rewrite (rd_elem h v xs) by (auto; lia). rewrite elem_nth. exact E.
Qed.

Lemma arg_ok s sp l v a x : vrel s sp -> v_vecs s l = Some v -> arg_val sp l a x ->
  exists e, arg_src s a = Some e /\ outside (v_heap s) v e x.
Proof.
  intros R Ev A. inversion A as [y|m i xs y N Em En]; subst; cbn [arg_src].
  - eexists. split; [reflexivity|]. reflexivity.
  - destruct (vrel_okv s sp m xs R Em) as (w & Ew & Ow). rewrite Ew. cbn.
    destruct (at_ok _ _ _ _ _ Ow En) as [-> Rd]. cbn. eexists. split; [reflexivity|]. cbn. split; [|exact Rd].
    intros E. assert (Z0 : m_data w = 0%nat) by (eapply (vr_disj _ _ R) with (l := m) (m := l); eauto).
    rewrite Z0 in Rd. unfold rd in Rd. rewrite (vr_null _ _ R) in Rd. discriminate.
Qed.

Lemma put_ok s sp l v p h' v' ys : vrel s sp -> (v_vecs s l = Some v \/ v = vec0 /\ v_vecs s l = None) ->
  p = Some (h', v') -> okv h' v' ys -> frame (v_heap s) v h' v' ->
  exists s', put s l p = Some (s', VUnit) /\ vrel s' (mset sp l (Some ys)).
Proof.
  intros R Ev -> O F. eexists. split; [reflexivity|]. eapply vrel_put; eauto.
Qed.

Theorem vstep_refines s sp o sp' r : vrel s sp -> qstep sp o sp' r ->
  exists s', vstep alloc s o = Some (s', r) /\ vrel s' sp'.
Proof.
  intros R Q. destruct Q; cbn [vstep].
  - (* new *) pose proof (vr_none _ _ R _ H) as E. rewrite E.
    eapply put_ok; [exact R|right; split; [reflexivity|exact E]|reflexivity| |apply frame_refl; reflexivity].
    split; [|split; [apply (vr_bound _ _ R)|apply (vr_null _ _ R)]]. split; cbn; auto; try lia; congruence.
  - pose proof (vr_none _ _ R _ H) as E. rewrite E. destruct (vrel_okv _ _ _ _ R H0) as (w & Ew & Ow). rewrite Ew.
    destruct (copy_ctor_ok _ _ _ Ow) as (h' & v' & E' & O' & F').
    eapply put_ok; eauto.
  - destruct (vrel_okv _ _ _ _ R H0) as (v & Ev & Ov). destruct (vrel_okv _ _ _ _ R H1) as (w & Ew & Ow).
    rewrite Ev, Ew. destruct (Nat.eqb_spec l m); [contradiction|].
    destruct (assign_ok _ v w xs ys Ov Ow) as (h' & v' & E' & O' & F').
    { intros E. rewrite <- E. eapply (vr_disj _ _ R) with (l := l) (m := m); eauto. }
    eapply put_ok; eauto.
  - destruct (vrel_okv _ _ _ _ R H) as (v & Ev & Ov). rewrite Ev.
    destruct (clear_ok _ _ _ Ov) as (h' & E' & O' & F' & _). rewrite E'. cbn. eexists. split; [reflexivity|].
    eapply vrel_destroy; eauto.
  - destruct (vrel_okv _ _ _ _ R H) as (w & Ev & Ov). rewrite Ev.
    destruct (arg_ok _ _ _ _ _ _ R Ev H0) as (e & -> & Out).
    destruct (push_ok _ _ _ _ _ Ov Out) as (h' & v' & E' & O' & F'). eapply put_ok; eauto.
  - destruct (vrel_okv _ _ _ _ R H) as (w & Ev & Ov). rewrite Ev.
    destruct (pop_ok _ _ _ _ Ov H0) as (h' & v' & E' & O' & F'). eapply put_ok; eauto.
  - destruct (vrel_okv _ _ _ _ R H) as (w & Ev & Ov). rewrite Ev. cbn [fst].
    destruct (Z.ltb_spec (Z.of_nat n) 0); [lia|].
    destruct (resize_ok _ _ _ n v Ov) as (h' & v' & E' & O' & F'). eapply put_ok; eauto.
  - destruct (vrel_okv _ _ _ _ R H) as (w & Ev & Ov). rewrite Ev. cbn [fst].
    destruct (Z.ltb_spec (Z.of_nat n) 0); [lia|].
    destruct (reserve_ok _ _ _ n Ov) as (h' & v' & E' & O' & F'). rewrite E'. cbn. eexists. split; [reflexivity|].
    eapply vrel_same; eauto.
  - destruct (vrel_okv _ _ _ _ R H) as (w & Ev & Ov). rewrite Ev.
    destruct (arg_ok _ _ _ _ _ _ R Ev H0) as (e & -> & Out).
    destruct (insert_ok _ _ _ _ _ _ Ov Out) as (h' & v' & E' & O' & F'). rewrite E'. cbn. eexists. split; [reflexivity|].
    eapply vrel_put; eauto.
  - destruct (vrel_okv _ _ _ _ R H) as (w & Ev & Ov). rewrite Ev.
    destruct (erase_ok _ _ _ _ _ Ov) as (h' & v' & E' & O' & F'). rewrite E'. cbn. eexists. split; [reflexivity|].
    eapply vrel_put; eauto.
  - destruct (vrel_okv _ _ _ _ R H) as (w & Ev & Ov). rewrite Ev.
    destruct (clear_ok _ _ _ Ov) as (h' & E' & O' & F' & _). eapply put_ok; eauto.
  - destruct (vrel_okv _ _ _ _ R H) as (w & Ev & Ov). rewrite Ev. 
    destruct (at_ok _ _ _ _ _ Ov H0) as [-> Rd]. cbn. rewrite Rd. eexists. split; [reflexivity|exact R].
  - destruct (vrel_okv _ _ _ _ R H) as (u & Ev & Ov). rewrite Ev. cbn [fst].
    assert (Ea : at_idx u (Z.of_nat (length xs)) = Some (Z.of_nat (length xs))).
    { unfold at_idx. pose proof Ov as (G & _). pose proof (gd_used _ _ _ G) as U. rewrite app_length in U. cbn [length] in U.
      destruct (Z.gtb_spec (Z.of_nat (length xs)) (m_used u)); [lia|reflexivity]. }
    rewrite Ea. destruct (set_ok _ _ _ _ _ v Ov) as (h' & E' & O' & F'). rewrite E'. eexists. split; [reflexivity|].
    pose proof (vrel_put s sp l u h' u _ R (or_introl Ev) O' F') as [A B C D G K].
    split; cbn [v_heap v_vecs] in *; auto.
    + intros m ys' E. destruct (A m ys' E) as (z & Ez & Gz). exists z. split; [|exact Gz].
      destruct (Nat.eq_dec m l) as [->|N]; [rewrite mset_eq in Ez; congruence|]. rewrite mset_ne in Ez by exact N. exact Ez.
    + intros m E. destruct (Nat.eq_dec m l) as [->|N]; [rewrite mset_eq in E; discriminate|].
      rewrite mset_ne in E by exact N. apply (vr_none _ _ R _ E).
    + intros a b u1 u2. apply (vr_disj _ _ R).
    + intros b Hb. destruct (D b Hb) as (m & z & Ez & Hz). exists m, z. split; [|exact Hz].
      destruct (Nat.eq_dec m l) as [->|N]; [rewrite mset_eq in Ez; congruence|]. rewrite mset_ne in Ez by exact N. exact Ez.
  - destruct (vrel_okv _ _ _ _ R H) as (u & Ev & Ov). rewrite Ev.
    pose proof Ov as (G & _). pose proof (gd_used _ _ _ G) as U. cbn [length] in U.
    destruct (Z.ltb_spec (m_used u) 1); [lia|].
    rewrite (rd_elem _ _ _ 0 Ov) by lia. cbn. eexists. split; [reflexivity|exact R].
  - destruct (vrel_okv _ _ _ _ R H) as (u & Ev & Ov). rewrite Ev.
    pose proof Ov as (G & _). pose proof (gd_used _ _ _ G) as U. rewrite app_length in U. cbn [length] in U.
    destruct (Z.ltb_spec (m_used u) 1); [lia|].
    rewrite (rd_elem _ _ _ (m_used u - 1) Ov) by lia. rewrite elem_app_r by lia.
    replace (m_used u - 1 - Z.of_nat (length xs)) with 0 by lia. cbn. eexists. split; [reflexivity|exact R].
  - destruct (vrel_okv _ _ _ _ R H) as (u & Ev & Ov). rewrite Ev. cbn.
    pose proof Ov as (G & _). rewrite (gd_used _ _ _ G). eexists. split; [reflexivity|exact R].
  - destruct (vrel_okv _ _ _ _ R H) as (u & Ev & Ov). rewrite Ev. cbn.
    pose proof Ov as (G & _). rewrite (gd_used _ _ _ G). eexists. split; [|exact R]. destruct xs; reflexivity.
Qed.

Theorem vrun_refines : forall ops s sp sp' rs, vrel s sp -> qrun sp ops sp' rs ->
  exists s', vrun alloc s ops = Some (s', rs) /\ vrel s' sp'.
Proof.
  induction ops as [|o ops IH]; intros s sp sp' rs R Q; inversion Q as [|? ? sp1 ? ? ? ? Q1 Q2]; subst; cbn [vrun].
  - eexists. split; [reflexivity|exact R].
  - destruct (vstep_refines _ _ _ _ _ R Q1) as (s1 & -> & R1).
    destruct (IH s1 _ _ _ R1 Q2) as (s2 & -> & R2). eexists. split; [reflexivity|exact R2].
Qed.

Lemma vrel0 : vrel vsys0 no_seqs.
Proof.
  split; cbn; try discriminate; try congruence; auto. intros b _. reflexivity.
Qed.
End Vec.
