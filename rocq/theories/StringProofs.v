(** Proofs for SourceHook::String. *)
From Coq Require Import List ZArith Arith Ascii Bool Lia.
From Verif Require Import Base ListModel VecProofs StrModel StrSpec StringModel StringSpec.
Import ListNotations.
Local Open Scope Z_scope.

Lemma all_ones_npos : npos = all_ones. Proof. reflexivity. Qed.
Lemma wsmall x : 0 <= x < 2 ^ 64 -> w x = x.
Proof. intro H; apply Z.mod_small; exact H. Qed.

(** Arrays *)

Lemma set_nth_spec b i c : (i < length b)%nat ->
  exists b', set_nth b i c = Some b' /\ length b' = length b /\
    forall j, nth_error b' j = if (j =? i)%nat then Some (Some c) else nth_error b j.
Proof.
  revert i; induction b as [|x b IH]; intros i H; [cbn in H; lia|].
  destruct i as [|i]; cbn [set_nth].
  - exists (Some c :: b); split; [reflexivity|split; [reflexivity|intros [|j]; reflexivity]].
  - destruct (IH i ltac:(cbn in H; lia)) as (b' & E & L & N); rewrite E; exists (x :: b').
    split; [reflexivity|split; [cbn; lia|]]. intros [|j]; [reflexivity|exact (N j)].
Qed.
Lemma wrc_spec b i c : (i < length b)%nat ->
  exists b', wrc b (Z.of_nat i) c = Some b' /\ length b' = length b /\
    forall j, nth_error b' j = if (j =? i)%nat then Some (Some c) else nth_error b j.
Proof.
  intro H; unfold wrc; destruct (Z.ltb_spec (Z.of_nat i) 0); [lia|]. rewrite Nat2Z.id; apply set_nth_spec; exact H.
Qed.
Lemma rdc_nth b i c : nth_error b i = Some (Some c) -> rdc b (Z.of_nat i) = Some c.
Proof.
  intro H; unfold rdc; destruct (Z.ltb_spec (Z.of_nat i) 0); [lia|]. now rewrite Nat2Z.id, H.
Qed.

(** pointwise description of the C string in an array *)
Definition holds (b : ubuf) (s : str) : Prop :=
  (forall j c, nth_error s j = Some c -> nth_error b j = Some (Some c) /\ c <> NUL) /\
  nth_error b (length s) = Some (Some NUL).

Lemma cs_holds b s : cs b = Some s <-> holds b s.
Proof.
  revert s; induction b as [|x b IH]; intro s.
  - split; [discriminate|]. intros (_ & H); destruct (length s); discriminate H.
  - destruct x as [c|]; cbn [cs].
    + destruct (Ascii.eqb_spec c NUL) as [->|N].
      * split.
        -- intros [= <-]; split; [intros [|j] c H; discriminate H|reflexivity].
        -- intros (H1 & H2); destruct s as [|d s]; [reflexivity|].
           destruct (H1 0%nat d eq_refl) as (E & M); cbn in E; congruence.
      * split.
        -- destruct (cs b) as [s'|] eqn:E; [|discriminate]. intros [= <-]. destruct (proj1 (IH s') eq_refl) as (A & B); split.
           ++ intros [|j] d H; [injection H as <-; now split|exact (A j d H)].
           ++ exact B.
        -- intros (H1 & H2); destruct s as [|d s]; [cbn in H2; congruence|].
           destruct (H1 0%nat d eq_refl) as (E & M); cbn in E; injection E as <-.
           assert (Q : cs b = Some s) by (apply IH; split; [intros j e; exact (H1 (S j) e)|exact H2]).
           now rewrite Q.
    + split; [discriminate|]. intros (H1 & H2); destruct s as [|d s]; [discriminate H2|].
      destruct (H1 0%nat d eq_refl) as (E & M); discriminate E.
Qed.
Lemma cs_len b s : cs b = Some s -> (length s < length b)%nat.
Proof. intro H; apply cs_holds in H; destruct H as (_ & H). apply nth_error_Some; congruence. Qed.
Lemma cs_nonul b s : cs b = Some s -> no_nul s.
Proof.
  intros H I; apply cs_holds in H; destruct (In_nth_error _ _ I) as (j & E). destruct (proj1 H j _ E); congruence.
Qed.
Lemma cs_skip b s i : cs b = Some s -> (i <= length s)%nat -> cs (skipn i b) = Some (skipn i s).
Proof.
  revert s i; induction b as [|x b IH]; intros s i E L; [discriminate|].
  destruct i as [|i]; [exact E|]. destruct x as [c|]; [|discriminate]. cbn [cs] in E.
  destruct (Ascii.eqb_spec c NUL); [injection E as <-; cbn in L; lia|].
  destruct (cs b) as [s'|] eqn:E'; [|discriminate]. injection E as <-. cbn [skipn]. apply IH; [reflexivity|cbn in L; lia].
Qed.

Lemma put_str_spec s : forall b i, (i + length s < length b)%nat ->
  exists b', put_str b (Z.of_nat i) s = Some b' /\ length b' = length b /\
    (forall j c, nth_error s j = Some c -> nth_error b' (i + j) = Some (Some c)) /\
    nth_error b' (i + length s) = Some (Some NUL) /\
    (forall j, (j < i)%nat -> nth_error b' j = nth_error b j).
Proof.
  induction s as [|c s IH]; intros b i H; cbn [put_str length] in *.
  - destruct (wrc_spec b i NUL ltac:(lia)) as (b' & E & L & N). exists b'; repeat split; auto.
    + intros [|j] d Q; discriminate Q.
    + rewrite N, Nat.add_0_r, Nat.eqb_refl; reflexivity.
    + intros j J; rewrite N; destruct (Nat.eqb_spec j i); [lia|reflexivity].
  - destruct (wrc_spec b i c ltac:(lia)) as (b1 & E & L & N). rewrite E; cbv iota beta.
    replace (Z.of_nat i + 1) with (Z.of_nat (S i)) by lia.
    destruct (IH b1 (S i) ltac:(lia)) as (b' & E' & L' & N1 & N2 & N3).
    exists b'; split; [exact E'|split; [congruence|split; [|split]]].
    + intros [|j] d Q.
      * cbn in Q; injection Q as <-. rewrite Nat.add_0_r, N3 by lia. now rewrite N, Nat.eqb_refl.
      * replace (i + S j)%nat with (S i + j)%nat by lia. now apply N1.
    + replace (i + S (length s))%nat with (S i + length s)%nat by lia. exact N2.
    + intros j J; rewrite N3 by lia. rewrite N; destruct (Nat.eqb_spec j i); [lia|reflexivity].
Qed.

(** overwriting from the end of a prefix *)
Lemma put_cs b x s i : cs b = Some x -> (i <= length x)%nat -> no_nul s -> (i + length s < length b)%nat ->
  exists b', put_str b (Z.of_nat i) s = Some b' /\ length b' = length b /\ cs b' = Some (firstn i x ++ s).
Proof.
  intros E L NN H. destruct (put_str_spec s b i H) as (b' & P & L' & N1 & N2 & N3).
  exists b'; split; [exact P|split; [exact L'|]]. apply cs_holds in E; destruct E as (E1 & E2). apply cs_holds; split.
  - intros j c Q. destruct (Nat.lt_ge_cases j i) as [J|J].
    + rewrite nth_error_app1 in Q by (rewrite firstn_length; lia).
      rewrite N3 by exact J. apply E1. rewrite <- (firstn_skipn i x). rewrite nth_error_app1; [exact Q|rewrite firstn_length; lia].
    + rewrite nth_error_app2 in Q by (rewrite firstn_length; lia). rewrite firstn_length, Nat.min_l in Q by lia.
      split; [specialize (N1 _ _ Q); now replace (i + (j - i))%nat with j in N1 by lia|].
      intros ->; apply NN; eapply nth_error_In; exact Q.
  - rewrite app_length, firstn_length, Nat.min_l by lia. exact N2.
Qed.
(** overwriting everything *)
Lemma put_all b s : no_nul s -> (length s < length b)%nat ->
  exists b', put_str b 0 s = Some b' /\ length b' = length b /\ cs b' = Some s.
Proof.
  intros NN H. destruct (put_str_spec s b 0 H) as (b' & P & L' & N1 & N2 & N3).
  exists b'; split; [exact P|split; [exact L'|]]. apply cs_holds; split; [|exact N2].
  intros j c Q; split; [exact (N1 j c Q)|]. intros ->; apply NN; eapply nth_error_In; exact Q.
Qed.

(** The relation *)

Definition txt (v : sobj) (x : str) : Prop := fits x /\ match v with None => x = [] | Some b => cs b = Some x end.
Definition srel (s : strs) (t : texts) : Prop :=
  forall l, match s l, t l with Some v, Some x => txt v x | None, None => True | _, _ => False end.

Lemma txt_c_str v x : txt v x -> c_str v = Some x.
Proof. intros (_ & H); destruct v; [exact H|now subst]. Qed.
Lemma txt_size v x : txt v x -> size_s v = Some (len x).
Proof. intro H; unfold size_s; now rewrite (txt_c_str _ _ H). Qed.
Lemma txt_nonul v x : txt v x -> no_nul x.
Proof. intros (_ & H); destruct v as [b|]; [exact (cs_nonul _ _ H)|subst; intros []]. Qed.

Lemma repeat_len n : length (repeat (@None ascii) n) = n. Proof. apply repeat_length. Qed.

Lemma fits_nil : fits []. Proof. unfold fits; cbn [length]; lia. Qed.
Lemma nonul_nil : no_nul []. Proof. intros []. Qed.

Lemma grow_copy v x d : txt v x -> len x < d ->
  exists b m, grow v d true = Some (Some b, m) /\ cs b = Some x /\ d <= Z.of_nat (length b).
Proof.
  intros (F & T) H. unfold grow. unfold len in H. destruct (Z.leb_spec d (a_size v)) as [G|G].
  - destruct v as [b|]; cbn [a_size] in G; [|lia]. exists b, false; auto.
  - assert (RL : length (repeat (@None ascii) (Z.to_nat (d + 1))) = Z.to_nat (d + 1)) by apply repeat_length.
    destruct v as [b|].
    + rewrite T. destruct (put_all (repeat None (Z.to_nat (d + 1))) x (cs_nonul _ _ T)) as (b' & E & L & C);
        [rewrite RL; lia|].
      rewrite E. exists b', true; split; [reflexivity|split; [exact C|rewrite L, RL; lia]].
    + subst x. destruct (put_all (repeat None (Z.to_nat (d + 1))) [] nonul_nil) as (b' & E & L & C);
        [rewrite RL; cbn [length] in *; lia|].
      rewrite E. exists b', true; split; [reflexivity|split; [exact C|rewrite L, RL; lia]].
Qed.
Lemma grow_nocopy v d : 0 < d ->
  exists b m, grow v d false = Some (Some b, m) /\ d <= Z.of_nat (length b).
Proof.
  intro H. unfold grow. destruct (Z.leb_spec d (a_size v)) as [G|G].
  - destruct v as [b|]; cbn [a_size] in G; [|lia]. exists b, false; auto.
  - assert (RL : length (repeat (@None ascii) (Z.to_nat (d + 1))) = Z.to_nat (d + 1)) by apply repeat_length.
    destruct v as [b|].
    + eexists; eexists; split; [reflexivity|rewrite RL; lia].
    + destruct (put_all (repeat None (Z.to_nat (d + 1))) [] nonul_nil) as (b' & E & L & C);
        [rewrite RL; cbn [length]; lia|].
      rewrite E. exists b', true; split; [reflexivity|rewrite L, RL; lia].
Qed.

Lemma clear_ok v x : txt v x -> exists v', clear_s v = Some v' /\ txt v' [].
Proof.
  intros (F & T); destruct v as [b|]; cbn [clear_s].
  - destruct (wrc_spec b 0 NUL ltac:(pose proof (cs_len _ _ T); lia)) as (b' & E & L & N).
    change (Z.of_nat 0) with 0 in E. rewrite E. exists (Some b'); split; [reflexivity|split; [exact fits_nil|]].
    apply cs_holds; split; [intros [|j] c Q; discriminate Q|]. apply N.
  - exists None; split; [reflexivity|split; [exact fits_nil|reflexivity]].
Qed.

Lemma assign_ok v t : fits t -> no_nul t -> exists v', assign_s v (PLit t) = Some v' /\ txt v' t.
Proof.
  intros F NN; cbn [assign_s]. destruct (grow_nocopy v (len t + 1)) as (b & m & E & L); [unfold len; lia|].
  rewrite E; cbv iota beta. destruct (put_all b t NN) as (b' & P & L' & C); [unfold len in L; lia|].
  rewrite P; exists (Some b'); split; [reflexivity|split; assumption].
Qed.

Lemma append_ok v x t : txt v x -> no_nul t -> fits (x ++ t) -> exists v', append_s v (PLit t) = Some v' /\ txt v' (x ++ t).
Proof.
  intros T NN F; unfold append_s; rewrite (txt_size _ _ T); cbn [load].
  destruct (grow_copy v x (len x + len t + 1) T) as (b & m & E & C & L); [unfold len; lia|].
  rewrite E; cbv iota beta. rewrite C; cbv iota beta. unfold len in *.
  destruct (put_cs b x t (length x) C ltac:(lia) NN ltac:(lia)) as (b' & P & L' & C').
  rewrite P; exists (Some b'); split; [reflexivity|split; [exact F|]]. now rewrite firstn_all in C'.
Qed.

Lemma append_c_ok v x c : txt v x -> fits (x ++ [c]) ->
  exists v', append_c v c = Some v' /\ txt v' (if Ascii.eqb c NUL then x else x ++ [c]).
Proof.
  intros T F; unfold append_c; rewrite (txt_size _ _ T).
  destruct (grow_copy v x (len x + 2) T) as (b & m & E & C & L); [unfold len; lia|].
  rewrite E; cbv iota beta. unfold len in *.
  destruct (wrc_spec b (length x) c ltac:(lia)) as (b1 & E1 & L1 & N1). rewrite E1; cbv iota beta.
  destruct (wrc_spec b1 (S (length x)) NUL ltac:(lia)) as (b2 & E2 & L2 & N2).
  replace (Z.of_nat (length x) + 1) with (Z.of_nat (S (length x))) by lia. rewrite E2; cbv iota beta.
  exists (Some b2); split; [reflexivity|]. apply cs_holds in C; destruct C as (C1 & C2).
  destruct (Ascii.eqb_spec c NUL) as [->|NE].
  - split; [exact (proj1 T)|]. apply cs_holds; split.
    + intros j d Q. destruct (C1 j d Q) as (Q1 & Q2); split; [|exact Q2].
      assert (J : (j < length x)%nat) by (apply nth_error_Some; congruence).
      rewrite N2, N1. destruct (Nat.eqb_spec j (S (length x))); [lia|]. destruct (Nat.eqb_spec j (length x)); [lia|exact Q1].
    + rewrite N2, N1, Nat.eqb_refl. destruct (Nat.eqb_spec (length x) (S (length x))); [lia|reflexivity].
  - split; [exact F|]. apply cs_holds; split.
    + intros j d Q. rewrite N2, N1. assert (J : (j < length (x ++ [c]))%nat) by (apply nth_error_Some; congruence).
      rewrite app_length in J; cbn [length] in J. destruct (Nat.eqb_spec j (S (length x))); [lia|].
      destruct (Nat.eqb_spec j (length x)) as [->|K].
      * rewrite nth_error_app2, Nat.sub_diag in Q by lia. injection Q as <-; now split.
      * rewrite nth_error_app1 in Q by lia. exact (C1 j d Q).
    + rewrite N2, app_length; cbn [length]. destruct (Nat.eqb_spec (length x + 1) (S (length x))); [reflexivity|lia].
Qed.

(** strcmp *)
Lemma lex_irrefl a : ~ lex_lt a a.
Proof.
  intros (p & a' & b' & E1 & E2 & H). assert (a' = b') as <- by (apply (app_inv_head p); congruence).
  destruct a'; [exact H|lia].
Qed.
Lemma lex_cons c a b : lex_lt (c :: a) (c :: b) <-> lex_lt a b.
Proof.
  split.
  - intros (p & a' & b' & E1 & E2 & H). destruct p as [|d p].
    + cbn in E1, E2; subst; lia.
    + injection E1 as -> E1; injection E2 as E2. now exists p, a', b'.
  - intros (p & a' & b' & -> & -> & H); now exists (c :: p), a', b'.
Qed.
Lemma lex_diff c d a b : c <> d -> (lex_lt (c :: a) (d :: b) <-> (nat_of_ascii c < nat_of_ascii d)%nat).
Proof.
  intro N; split.
  - intros (p & a' & b' & E1 & E2 & H). destruct p as [|e p].
    + cbn in E1, E2; subst; exact H.
    + injection E1 as -> E1; injection E2 as ? E2; congruence.
  - intro H; now exists [], (c :: a), (d :: b).
Qed.
Lemma nat_ascii_inj c d : nat_of_ascii c = nat_of_ascii d -> c = d.
Proof. intro H; rewrite <- (ascii_nat_embedding c), <- (ascii_nat_embedding d), H; reflexivity. Qed.
Lemma strcmp_ok a b : ordered a b (strcmp a b).
Proof.
  revert b; induction a as [|c a IH]; intros [|d b]; cbn [strcmp].
  - split; [tauto|split]; split; try lia; intro H; exfalso; exact (lex_irrefl _ H).
  - split; [split; [lia|discriminate]|split; split; try lia].
    + intros _; now exists [], [], (d :: b).
    + intros (p & a' & b' & E1 & E2 & H). symmetry in E2; apply app_eq_nil in E2; destruct E2 as (-> & ->). destruct a'; destruct H.
  - split; [split; [lia|discriminate]|split; split; try lia].
    + intros (p & a' & b' & E1 & E2 & H). symmetry in E2; apply app_eq_nil in E2; destruct E2 as (-> & ->). destruct a'; destruct H.
    + intros _; now exists [], [], (c :: a).
  - destruct (Ascii.eqb_spec c d) as [->|N].
    + destruct (IH b) as (A & B & C). split; [rewrite A; split; congruence|]. now rewrite !lex_cons.
    + assert (K : nat_of_ascii c <> nat_of_ascii d) by (intro Q; apply N, nat_ascii_inj, Q).
      unfold ordered; rewrite (lex_diff c d) by exact N. rewrite (lex_diff d c) by (intro; congruence).
      destruct (Nat.ltb_spec (nat_of_ascii c) (nat_of_ascii d)); split; try (split; [lia|congruence]); split; lia.
Qed.

(** find *)
Lemma find_fwd_ok b x c : cs b = Some x -> fits x ->
  forall n i, (i + n = length x)%nat ->
  exists z, find_fwd n b c (Z.of_nat i) = Some z /\ first_from x c (Z.of_nat i) z.
Proof.
  intros C F; apply cs_holds in C; destruct C as (C1 & C2). induction n as [|n IH]; intros i H; cbn [find_fwd].
  - exists npos; split; [reflexivity|left; split; [reflexivity|]].
    intros j J (_ & Q). assert (Z.to_nat j < length x)%nat by (apply nth_error_Some; congruence). lia.
  - assert (I : (i < length x)%nat) by lia. destruct (nth_error x i) as [e|] eqn:Q; [|apply nth_error_None in Q; lia].
    rewrite (rdc_nth _ _ _ (proj1 (C1 _ _ Q))); cbv iota beta.
    destruct (Ascii.eqb_spec e c) as [->|N].
    + exists (Z.of_nat i); split; [reflexivity|right]. split; [lia|split; [|intros; lia]]. split; [lia|now rewrite Nat2Z.id].
    + replace (Z.of_nat i + 1) with (Z.of_nat (S i)) by lia.
      destruct (IH (S i) ltac:(lia)) as (z & E & P); exists z; split; [exact E|].
      assert (NI : forall j, Z.of_nat i = j -> ~ char_at x j c) by (intros j <- (_ & X); rewrite Nat2Z.id in X; congruence).
      destruct P as [(-> & P)|(P1 & P2 & P3)].
      * left; split; [reflexivity|]. intros j J; destruct (Z.eq_dec (Z.of_nat i) j) as [K|K]; [now apply NI|apply P; lia].
      * right; split; [lia|split; [exact P2|]].
        intros j J; destruct (Z.eq_dec (Z.of_nat i) j) as [K|K]; [now apply NI|apply P3; lia].
Qed.
Lemma find_ok v x c i : txt v x -> sized i -> exists z, find_s v c i = Some z /\ first_from x c i z.
Proof.
  intros T I; unfold find_s; rewrite (txt_size _ _ T). unfold sized in I.
  assert (NF : Z.of_nat (length x) <= i -> first_from x c i npos).
  { intro H; left; split; [reflexivity|]. intros j J (_ & Q).
    assert (Z.to_nat j < length x)%nat by (apply nth_error_Some; congruence). lia. }
  unfold len. destruct (Z.ltb_spec (Z.of_nat (length x)) 1); [exists npos; split; [reflexivity|apply NF; lia]|].
  destruct (Z.geb_spec i (Z.of_nat (length x))); [exists npos; split; [reflexivity|apply NF; lia]|].
  destruct T as (F & T). destruct v as [b|]; [|subst; cbn in *; lia]. cbv iota beta.
  destruct (find_fwd_ok b x c T F (Z.to_nat (Z.of_nat (length x) - i)) (Z.to_nat i) ltac:(lia)) as (z & E & P).
  rewrite Z2Nat.id in E, P by lia. now exists z.
Qed.
Lemma find_bwd_ok b x c : cs b = Some x -> forall n, (n <= length x)%nat ->
  exists z, find_bwd n b c = Some z /\ last_upto x c (Z.of_nat n - 1) z.
Proof.
  intros C; apply cs_holds in C; destruct C as (C1 & C2). induction n as [|n IH]; intros H; cbn [find_bwd].
  - exists npos; split; [reflexivity|left; split; [reflexivity|]]. intros j J (Q & _); lia.
  - destruct (nth_error x n) as [e|] eqn:Q; [|apply nth_error_None in Q; lia].
    rewrite (rdc_nth _ _ _ (proj1 (C1 _ _ Q))); cbv iota beta.
    destruct (Ascii.eqb_spec e c) as [->|N].
    + exists (Z.of_nat n); split; [reflexivity|right]. split; [lia|split; [|intros; lia]]. split; [lia|now rewrite Nat2Z.id].
    + destruct (IH ltac:(lia)) as (z & E & P); exists z; split; [exact E|].
      assert (NI : forall j, Z.of_nat n = j -> ~ char_at x j c) by (intros j <- (_ & X); rewrite Nat2Z.id in X; congruence).
      destruct P as [(-> & P)|(P1 & P2 & P3)].
      * left; split; [reflexivity|]. intros j J; destruct (Z.eq_dec (Z.of_nat n) j) as [K|K]; [now apply NI|apply P; lia].
      * right; split; [lia|split; [exact P2|]].
        intros j J; destruct (Z.eq_dec (Z.of_nat n) j) as [K|K]; [now apply NI|apply P3; lia].
Qed.
Lemma find_last_ok v x c i : txt v x -> 0 <= i < Z.of_nat (length x) -> exists z, find_last_s v c i = Some z /\ last_upto x c i z.
Proof.
  intros T I; unfold find_last_s; rewrite (txt_size _ _ T). unfold len.
  destruct (Z.ltb_spec (Z.of_nat (length x)) 1); [lia|]. destruct (Z.geb_spec i (Z.of_nat (length x))); [lia|].
  destruct T as (F & T). destruct v as [b|]; [|subst; cbn in *; lia]. cbv iota beta.
  assert (i <> npos) by (unfold npos, size_mod; unfold fits in F; lia).
  destruct (Z.eqb_spec i npos); [contradiction|].
  destruct (find_bwd_ok b x c T (Z.to_nat (i + 1)) ltac:(lia)) as (z & E & P).
  exists z; split; [exact E|]. now replace i with (Z.of_nat (Z.to_nat (i + 1)) - 1) by lia.
Qed.

(** erase *)
Lemma erase_loop_ok ln start num : 0 <= start -> 0 < num -> start + num <= ln -> ln < 2 ^ 62 ->
  forall n b i, Z.of_nat (i + n) = ln -> (i + n <= length b)%nat ->
  (forall j, (j < i + n)%nat -> exists c, nth_error b j = Some (Some c)) ->
  exists b', erase_loop n b (Z.of_nat i) ln start num (start <? Z.of_nat i) = Some b' /\ length b' = length b /\
    forall j, nth_error b' j =
      if (i <=? j)%nat && (j <? i + n)%nat && (start <=? Z.of_nat j)
      then (if Z.of_nat j + num <? ln then nth_error b (j + Z.to_nat num) else Some (Some NUL))
      else nth_error b j.
Proof.
  intros S0 N0 SN LN. induction n as [|n IH]; intros b i H HL HB; cbn [erase_loop].
  - exists b; split; [reflexivity|split; [reflexivity|]]. intro j.
    destruct (Nat.leb_spec i j), (Nat.ltb_spec j (i + 0)); cbn [andb]; try reflexivity; lia.
  - rewrite (wsmall (start + num)) by lia. rewrite (wsmall (Z.of_nat i + num)) by lia.
    replace (Z.of_nat i + 1) with (Z.of_nat (S i)) by lia.
    assert (CD : (Z.of_nat i >=? start) && (Z.of_nat i <? start + num) || (start <? Z.of_nat i) = (start <=? Z.of_nat i)).
    { destruct (Z.geb_spec (Z.of_nat i) start), (Z.ltb_spec (Z.of_nat i) (start + num)), (Z.ltb_spec start (Z.of_nat i)),
        (Z.leb_spec start (Z.of_nat i)); cbn; try reflexivity; lia. }
    rewrite CD. destruct (Z.leb_spec start (Z.of_nat i)) as [G|G].
    + assert (W : exists b1, (if Z.of_nat i + num <? ln then do c <- rdc b (Z.of_nat i + num); wrc b (Z.of_nat i) c
                               else wrc b (Z.of_nat i) NUL) = Some b1 /\ length b1 = length b /\
                  forall j, nth_error b1 j = if (j =? i)%nat
                    then (if Z.of_nat i + num <? ln then nth_error b (i + Z.to_nat num) else Some (Some NUL)) else nth_error b j).
      { destruct (Z.ltb_spec (Z.of_nat i + num) ln) as [L|L].
        - destruct (HB (i + Z.to_nat num)%nat ltac:(lia)) as (c & Q).
          replace (Z.of_nat i + num) with (Z.of_nat (i + Z.to_nat num)) by lia. rewrite (rdc_nth _ _ _ Q).
          destruct (wrc_spec b i c ltac:(lia)) as (b1 & E & L1 & N1). exists b1; rewrite Q; auto.
        - destruct (wrc_spec b i NUL ltac:(lia)) as (b1 & E & L1 & N1). exists b1; auto. }
      destruct W as (b1 & E & L1 & N1). rewrite E; cbv iota beta.
      replace true with (start <? Z.of_nat (S i)) by (apply Z.ltb_lt; lia).
      destruct (IH b1 (S i) ltac:(lia) ltac:(lia)) as (b' & E' & L' & N').
      { intros j J; rewrite N1. destruct (Nat.eqb_spec j i) as [->|K]; [|apply HB; lia].
        destruct (Z.ltb_spec (Z.of_nat i + num) ln); [apply HB; lia|eauto]. }
      exists b'; split; [exact E'|split; [congruence|]]. intro j; rewrite N', !N1.
      destruct (Nat.leb_spec (S i) j), (Nat.ltb_spec j (S i + n)), (Nat.leb_spec i j), (Nat.ltb_spec j (i + S n)),
        (Z.leb_spec start (Z.of_nat j)), (Nat.eqb_spec j i); cbn [andb]; try lia; try reflexivity.
      * destruct (Z.ltb_spec (Z.of_nat j + num) ln); [|reflexivity]. destruct (Nat.eqb_spec (j + Z.to_nat num) i); [lia|reflexivity].
      * subst j; reflexivity.
    + replace (start <? Z.of_nat i) with (start <? Z.of_nat (S i))
        by (destruct (Z.ltb_spec start (Z.of_nat (S i))), (Z.ltb_spec start (Z.of_nat i)); try reflexivity; lia).
      destruct (IH b (S i) ltac:(lia) ltac:(lia)) as (b' & E' & L' & N').
      { intros j J; apply HB; lia. }
      exists b'; split; [exact E'|split; [congruence|]]. intro j; rewrite N'.
      destruct (Nat.leb_spec (S i) j), (Nat.ltb_spec j (S i + n)), (Nat.leb_spec i j), (Nat.ltb_spec j (i + S n)),
        (Z.leb_spec start (Z.of_nat j)); cbn [andb]; try lia; try reflexivity.
Qed.
Lemma erase_loop_none ln start : forall n b i, 0 <= start < 2 ^ 64 -> erase_loop n b i ln start 0 false = Some b.
Proof.
  induction n as [|n IH]; intros b i H; cbn [erase_loop]; [reflexivity|].
  rewrite (wsmall (start + 0)) by lia.
  destruct (Z.geb_spec i start), (Z.ltb_spec i (start + 0)); cbn [andb orb]; try lia; now apply IH.
Qed.

(** erasing num characters, as far as the arithmetic goes *)
Lemma erase_core b a d c : cs b = Some (a ++ d ++ c) -> fits (a ++ d ++ c) -> forall n,
  (if (n =? npos) || (w (len a + n) >? w (len (a ++ d ++ c) - len a)) then w (len (a ++ d ++ c) - len a) else n) = len d ->
  exists v', erase_s (Some b) (len a) n = Some v' /\ txt v' (a ++ c).
Proof.
  intros C F n HN. unfold erase_s. assert (T : txt (Some b) (a ++ d ++ c)) by (split; assumption).
  rewrite (txt_size _ _ T); cbv zeta. rewrite HN.
  assert (LL : length (a ++ d ++ c) = (length a + length d + length c)%nat) by (rewrite !app_length; lia).
  assert (BL := cs_len _ _ C). unfold fits in F.
  assert (F' : fits (a ++ c)) by (unfold fits; rewrite app_length; lia).
  apply cs_holds in C; destruct C as (C1 & C2).
  assert (K : exists b1, erase_loop (Z.to_nat (len (a ++ d ++ c))) b 0 (len (a ++ d ++ c)) (len a) (len d) false = Some b1 /\
              length b1 = length b /\ forall j x, nth_error (a ++ c) j = Some x -> nth_error b1 j = Some (Some x)).
  { unfold len. destruct d as [|d0 d'].
    - exists b; split; [apply erase_loop_none; lia|split; [reflexivity|]]. intros j x Q; apply (C1 j x Q).
    - remember (d0 :: d') as d. assert (0 < length d)%nat by (subst; cbn; lia).
      destruct (erase_loop_ok (Z.of_nat (length (a ++ d ++ c))) (Z.of_nat (length a)) (Z.of_nat (length d))
                  ltac:(lia) ltac:(lia) ltac:(lia) ltac:(lia) (length (a ++ d ++ c)) b 0 ltac:(lia) ltac:(lia)) as (b1 & E & L & N).
      + intros j J. destruct (nth_error (a ++ d ++ c) j) as [x|] eqn:Q; [exists x; apply (C1 j x Q)|apply nth_error_None in Q; lia].
      + rewrite Nat2Z.id. change (Z.of_nat 0) with 0 in E.
        replace (Z.of_nat (length a) <? 0) with false in E by (symmetry; apply Z.ltb_ge; lia).
        exists b1; split; [exact E|split; [exact L|]]. intros j x Q; rewrite N.
        assert (J : (j < length (a ++ c))%nat) by (apply nth_error_Some; congruence). rewrite app_length in J.
        destruct (Nat.leb_spec 0 j), (Nat.ltb_spec j (0 + length (a ++ d ++ c))); cbn [andb]; try lia.
        destruct (Z.leb_spec (Z.of_nat (length a)) (Z.of_nat j)) as [G|G].
        * destruct (Z.ltb_spec (Z.of_nat j + Z.of_nat (length d)) (Z.of_nat (length (a ++ d ++ c)))); [|lia].
          rewrite nth_error_app2 in Q by lia. apply C1. rewrite Nat2Z.id.
          rewrite nth_error_app2 by lia. rewrite nth_error_app2 by lia. rewrite <- Q; f_equal; lia.
        * rewrite nth_error_app1 in Q by lia. apply C1. rewrite nth_error_app1 by lia. exact Q. }
  destruct K as (b1 & E & L & N). rewrite E; cbv iota beta.
  rewrite wsmall by (unfold len; lia).
  replace (len (a ++ d ++ c) - len d) with (Z.of_nat (length (a ++ c))) by (unfold len; rewrite LL, app_length; lia).
  destruct (wrc_spec b1 (length (a ++ c)) NUL) as (b2 & E2 & L2 & N2); [rewrite app_length; lia|].
  rewrite E2; exists (Some b2); split; [reflexivity|split; [exact F'|]]. apply cs_holds; split.
  - intros j x Q. assert (J : (j < length (a ++ c))%nat) by (apply nth_error_Some; congruence).
    rewrite N2. destruct (Nat.eqb_spec j (length (a ++ c))); [lia|]. split; [now apply N|].
    destruct (Nat.lt_ge_cases j (length a)) as [G|G].
    + rewrite nth_error_app1 in Q by lia. apply (C1 j). rewrite nth_error_app1 by lia. exact Q.
    + rewrite nth_error_app2 in Q by lia. apply (C1 (j + length d)%nat). rewrite nth_error_app2 by lia.
      rewrite nth_error_app2 by lia. rewrite <- Q; f_equal; lia.
  - rewrite N2, Nat.eqb_refl; reflexivity.
Qed.

Lemma erase_ok v x i n u : txt v x -> sized i -> sized n -> i <= Z.of_nat (length x) ->
  (i + i + n <= Z.of_nat (length x) \/ Z.of_nat (length x) <= i + n < 2 ^ 64 \/ n = all_ones) ->
  remove x i n u -> exists v', erase_s v i n = Some v' /\ txt v' u.
Proof.
  intros (F & T) SI SN LI CN (a & d & c & -> & -> & LA & LD). unfold sized in *. unfold fits in F.
  assert (LL : length (a ++ d ++ c) = (length a + length d + length c)%nat) by (rewrite !app_length; lia).
  destruct v as [b|].
  - replace i with (len a) by exact LA. apply (erase_core b a d c T F). unfold len.
    rewrite (wsmall (Z.of_nat (length (a ++ d ++ c)) - Z.of_nat (length a))) by lia.
    rewrite all_ones_npos. destruct (Z.eqb_spec n all_ones) as [->|NA]; cbn [orb].
    + unfold all_ones in *. destruct LD as [LD|(LD & ->)]; [lia|]. cbn [length] in LL; lia.
    + destruct CN as [CN|[CN|CN]]; [| |contradiction].
      * rewrite wsmall by lia. destruct (Z.gtb_spec (Z.of_nat (length a) + n) (Z.of_nat (length (a ++ d ++ c)) - Z.of_nat (length a)));
          destruct LD as [LD|(LD & ->)]; cbn [length] in *; lia.
      * rewrite wsmall by lia. destruct (Z.gtb_spec (Z.of_nat (length a) + n) (Z.of_nat (length (a ++ d ++ c)) - Z.of_nat (length a)));
          destruct LD as [LD|(LD & ->)]; cbn [length] in *; lia.
  - apply app_eq_nil in T; destruct T as (-> & T). apply app_eq_nil in T; destruct T as (-> & ->).
    exists None; split; [reflexivity|split; [exact fits_nil|reflexivity]].
Qed.

(** trim *)
Lemma is_space_white c : is_space c = true <-> white c.
Proof.
  unfold is_space, white; rewrite existsb_exists; split.
  - intros (d & I & E); apply Ascii.eqb_eq in E; subst d. cbn in *; tauto.
  - intro I; exists c; split; [cbn in *; tauto|apply Ascii.eqb_refl].
Qed.
Lemma is_space_not c : is_space c = false <-> ~ white c.
Proof. rewrite <- is_space_white; destruct (is_space c); split; congruence. Qed.

Lemma rdc_first b x : cs b = Some x -> rdc b 0 = Some (hd NUL x).
Proof.
  intro C; apply cs_holds in C; destruct C as (C1 & C2). apply (rdc_nth b 0).
  destruct x as [|c x]; [exact C2|]. apply (C1 0%nat c eq_refl).
Qed.
Lemma rdc_mid b p c q : cs b = Some (p ++ c :: q) -> rdc b (len p) = Some c.
Proof.
  intro C; apply cs_holds in C; destruct C as (C1 & _). apply rdc_nth, C1.
  rewrite nth_error_app2, Nat.sub_diag by lia. reflexivity.
Qed.
Lemma fits_app_r a b : fits (a ++ b) -> fits b. Proof. unfold fits; rewrite app_length; lia. Qed.
Lemma fits_app_l a b : fits (a ++ b) -> fits a. Proof. unfold fits; rewrite app_length; lia. Qed.

Lemma erase_front b a c : cs b = Some (a ++ c) -> fits (a ++ c) -> exists v', erase_s (Some b) 0 (len a) = Some v' /\ txt v' c.
Proof.
  intros C F. apply (erase_core b [] a c C F). unfold len; cbn [length app]. unfold fits in F. rewrite app_length in *.
  rewrite !wsmall by lia. unfold npos, size_mod. destruct (Z.eqb_spec (Z.of_nat (length a)) (2 ^ 64 - 1)); [lia|]. cbn [orb].
  destruct (Z.gtb_spec (Z.of_nat 0 + Z.of_nat (length a)) (Z.of_nat (length a + length c) - Z.of_nat 0)); lia.
Qed.
Lemma erase_back b a d : cs b = Some (a ++ d) -> fits (a ++ d) -> a <> [] ->
  exists v', erase_s (Some b) (len a) (len d) = Some v' /\ txt v' a.
Proof.
  intros C F NE. destruct (erase_core b a d []) with (n := len d) as (v' & E & T).
  - now rewrite app_nil_r.
  - now rewrite app_nil_r.
  - rewrite app_nil_r. unfold len; unfold fits in F. rewrite app_length in *.
    destruct a as [|a0 a]; [contradiction|]. cbn [length] in *.
    rewrite !wsmall by lia. unfold npos, size_mod. destruct (Z.eqb_spec (Z.of_nat (length d)) (2 ^ 64 - 1)); [lia|]. cbn [orb].
    destruct (Z.gtb_spec (Z.of_nat (S (length a)) + Z.of_nat (length d)) (Z.of_nat (S (length a) + length d) - Z.of_nat (S (length a)))); lia.
  - exists v'; split; [exact E|]. now rewrite app_nil_r in T.
Qed.

Lemma trim_left_ok b : forall rest p, cs b = Some (p ++ rest) -> fits (p ++ rest) -> Forall white p -> rest <> [] ->
  exists v' sp m, trim_left (length rest) b (len p) (len (p ++ rest)) = Some v' /\ p ++ rest = sp ++ m /\ Forall white sp /\ txt v' m /\
    m <> [] /\ (~ starts_white m \/ exists c, m = [c] /\ white c).
Proof.
  induction rest as [|c rest IH]; intros p C F W NE; [contradiction|]. cbn [length trim_left].
  rewrite (rdc_mid _ _ _ _ C); cbv iota beta. destruct (is_space c) eqn:S; cbn [negb orb andb].
  - apply is_space_white in S. destruct (Z.eqb_spec (len p) (len (p ++ c :: rest) - 1)) as [E|E].
    + assert (rest = []) as -> by (unfold len in E; rewrite app_length in E; cbn [length] in E; destruct rest; [reflexivity|cbn [length] in E; lia]).
      destruct (erase_front b p [c] C F) as (v' & E' & T). exists v', p, [c].
      split; [exact E'|split; [reflexivity|split; [exact W|split; [exact T|split; [discriminate|right; eauto]]]]].
    + destruct rest as [|d rest]; [unfold len in E; rewrite app_length in E; cbn [length] in E; lia|].
      replace (len p + 1) with (len (p ++ [c])) by (unfold len; rewrite app_length; cbn [length]; lia).
      replace (p ++ c :: d :: rest) with ((p ++ [c]) ++ d :: rest) in * by (rewrite <- app_assoc; reflexivity).
      apply IH; auto; [apply Forall_app; auto|discriminate].
  - apply is_space_not in S. destruct (erase_front b p (c :: rest) C F) as (v' & E' & T).
    exists v', p, (c :: rest).
    split; [exact E'|split; [reflexivity|split; [exact W|split; [exact T|split; [discriminate|left]]]]]. intros (x & t & [= -> ->] & X); contradiction.
Qed.

Lemma trim_right_ok b : forall k m sp, length m = k -> m <> [] -> cs b = Some (m ++ sp) -> fits (m ++ sp) -> Forall white sp ->
  exists v' t sp', trim_right k b (len sp) = Some v' /\ m ++ sp = t ++ sp' /\ Forall white sp' /\ txt v' t /\
    t <> [] /\ (~ ends_white t \/ exists c, t = [c] /\ white c).
Proof.
  induction k as [|k IH]; intros m sp L NE C F W; [destruct m; [contradiction|discriminate]|].
  destruct (exists_last NE) as (m' & c & ->). rewrite app_length in L; cbn [length] in L.
  cbn [trim_right]. replace (rdc b (Z.of_nat k)) with (rdc b (len m')) by (unfold len; do 2 f_equal; lia).
  rewrite (rdc_mid b m' c sp) by (rewrite C; f_equal; now rewrite <- app_assoc). cbv iota beta.
  assert (EB : exists v', erase_s (Some b) (len (m' ++ [c])) (len sp) = Some v' /\ txt v' (m' ++ [c]))
    by (apply erase_back; auto).
  replace (Z.of_nat k + 1) with (len (m' ++ [c])) by (unfold len; rewrite app_length; cbn [length]; lia).
  destruct (is_space c) eqn:S; cbn [negb orb andb].
  - apply is_space_white in S. destruct (Nat.eqb_spec k 0) as [K|K].
    + destruct EB as (v' & E & T). assert (m' = []) as -> by (destruct m'; [reflexivity|cbn in L; lia]).
      exists v', [c], sp.
      split; [exact E|split; [reflexivity|split; [exact W|split; [exact T|split; [discriminate|right; eauto]]]]].
    + replace (len sp + 1) with (len (c :: sp)) by (unfold len; cbn [length]; lia).
      replace ((m' ++ [c]) ++ sp) with (m' ++ c :: sp) in * by (rewrite <- app_assoc; reflexivity).
      apply IH; auto; [lia|destruct m'; [cbn in L; lia|discriminate]].
  - apply is_space_not in S. destruct EB as (v' & E & T). exists v', (m' ++ [c]), sp.
    split; [exact E|split; [reflexivity|split; [exact W|split; [exact T|split; [exact NE|left]]]]]. intros (x & t & Q & X). apply app_inj_tail in Q; destruct Q as (_ & <-); contradiction.
Qed.

Lemma trim_ok v x : txt v x -> exists v' u, trim_s v = Some v' /\ trimmed x u /\ txt v' u.
Proof.
  intros (F & T); destruct v as [b|].
  2:{ subst x. exists None, []. split; [reflexivity|split; [|split; [exact fits_nil|reflexivity]]].
      exists []. split; exists []; repeat split; auto; intros (c & t & Q & _); [discriminate|destruct t; discriminate]. }
  cbn [trim_s]. rewrite T, (rdc_first _ _ T); cbv iota beta.
  assert (NS : ~ starts_white []) by (intros (c & t & Q & _); discriminate).
  assert (NE : ~ ends_white []) by (intros (c & t & Q & _); destruct t; discriminate).
  destruct ((len x =? 1) && is_space (hd NUL x)) eqn:E1.
  - apply andb_true_iff in E1; destruct E1 as (E1 & E2). apply Z.eqb_eq in E1.
    destruct x as [|c [|d x]]; unfold len in E1; cbn [length] in E1; try lia. cbn [hd] in E2. apply is_space_white in E2.
    destruct (clear_ok (Some b) [c] (conj F T)) as (v' & E & T'). exists v', []. split; [exact E|split; [|exact T']].
    exists []; split; [exists [c]|exists []]; repeat split; auto.
  - (* after the left side *)
    assert (LT : exists v1 sp m, (if is_space (hd NUL x) then trim_left (length x) b 0 (len x) else @Some sobj (Some b)) = Some v1 /\
                   x = sp ++ m /\ Forall white sp /\ txt v1 m /\ (x <> [] -> m <> []) /\
                   (~ starts_white m \/ exists c, m = [c] /\ white c)).
    { destruct (is_space (hd NUL x)) eqn:S.
      - destruct x as [|c x]; [discriminate S|].
        destruct (trim_left_ok b (c :: x) [] T F (Forall_nil _)) as (v1 & sp & m & A1 & A2 & A3 & A4 & A5 & A6); [discriminate|].
        exists v1, sp, m; repeat split; auto; apply A4.
      - exists (Some b), [], x; repeat split; auto. left. intros (c & t & -> & W).
        apply is_space_white in W; cbn [hd] in S; congruence. }
    destruct LT as (v1 & sp & m & A1 & A2 & A3 & A4 & A5 & A6). rewrite A1; cbv iota beta.
    destruct A4 as (F1 & T1). destruct v1 as [b1|].
    2:{ (* v stays allocated *)
      exfalso. subst m. destruct (is_space (hd NUL x)) eqn:S; [|discriminate A1]. destruct x as [|c x]; [discriminate S|].
      apply A5; [discriminate|reflexivity]. }
    rewrite T1; cbv iota beta. unfold len at 1. destruct (Z.ltb_spec (Z.of_nat (length m)) 1) as [L|L].
    { assert (m = []) as -> by (destruct m; [reflexivity|cbn [length] in L; lia]).
      exists (Some b1), []; split; [reflexivity|split; [|split; assumption]].
      exists []; split; [exists sp; auto|exists []; auto]. }
    assert (NM : m <> []) by (intros ->; cbn [length] in L; lia).
    destruct (exists_last NM) as (m' & c & EM).
    assert (RC : rdc b1 (len m - 1) = Some c).
    { replace (len m - 1) with (len m') by (unfold len; rewrite EM, app_length; cbn [length]; lia).
      apply (rdc_mid b1 m' c []). now rewrite <- EM. }
    rewrite RC; cbv iota beta.
    assert (RT : exists b2 t sp2, (if is_space c then trim_right (length m) b1 0 else @Some sobj (Some b1)) = @Some sobj (Some b2) /\
                   m = t ++ sp2 /\ Forall white sp2 /\ txt (Some b2) t /\ t <> [] /\ (~ ends_white t \/ exists c, t = [c] /\ white c)).
    { destruct (is_space c) eqn:S.
      - destruct (trim_right_ok b1 (length m) m [] eq_refl NM) as (v2 & t & sp2 & B1 & B2 & B3 & B4 & B5 & B6);
          [now rewrite app_nil_r|now rewrite app_nil_r|constructor|]. rewrite app_nil_r in B2.
        destruct v2 as [b2|]; [|destruct B4; contradiction]. exists b2, t, sp2; repeat split; auto; apply B4.
      - exists b1, m, []; rewrite app_nil_r; repeat split; auto. left; intros (d & t & Q & W).
        rewrite EM in Q; apply app_inj_tail in Q; destruct Q as (_ & <-). apply is_space_white in W; congruence. }
    destruct RT as (b2 & t & sp2 & B1 & B2 & B3 & B4 & B5 & B6). rewrite B1; cbv iota beta.
    rewrite (rdc_first _ _ (proj2 B4)); cbv iota beta.
    destruct (Z.eqb_spec (len m) 1) as [K|K]; cbn [andb].
    + assert (exists d, m = [d]) as (d & ->) by (unfold len in K; destruct m as [|d [|e m]]; cbn [length] in K; try lia; eauto).
      assert (t = [d] /\ sp2 = []) as (-> & ->).
      { destruct t as [|e t]; [contradiction|]. cbn in B2; injection B2 as <- B2. symmetry in B2; apply app_eq_nil in B2.
        destruct B2 as (-> & ->); auto. }
      cbn [hd]. destruct (is_space d) eqn:S.
      * apply is_space_white in S. destruct (clear_ok _ _ B4) as (v' & E & T'). exists v', []; split; [exact E|split; [|exact T']].
        exists []; split; [exists (sp ++ [d])|exists []; auto]. rewrite app_nil_r; repeat split; auto. apply Forall_app; auto.
      * apply is_space_not in S. exists (Some b2), [d]; split; [reflexivity|split; [|exact B4]].
        exists [d]; split; [exists sp|exists []]; repeat split; auto.
        -- intros (e & q & [= <- <-] & X); contradiction.
        -- intros (e & q & Q & X). destruct q as [|q0 [|q1 q]]; [injection Q as <-; contradiction|discriminate|discriminate].
    + exists (Some b2), t; split; [reflexivity|split; [|exact B4]].
      assert (SM : ~ starts_white m).
      { destruct A6 as [A6|(e & -> & _)]; [exact A6|]. exfalso; apply K; reflexivity. }
      exists m; split; [exists sp; auto|exists sp2; repeat split; auto].
      destruct B6 as [B6|(e & -> & W)]; [exact B6|]. exfalso; apply SM. exists e, sp2; split; [exact B2|exact W].
Qed.

(** substr *)
Lemma sub_loop_ok b : forall mid pre post ns y, cs b = Some (pre ++ mid ++ post) -> txt ns y -> fits (y ++ mid) ->
  exists v', sub_loop (length mid) b (len pre) ns = Some v' /\ txt v' (y ++ mid).
Proof.
  induction mid as [|c mid IH]; intros pre post ns y C T F; cbn [length sub_loop].
  - exists ns; rewrite app_nil_r; auto.
  - rewrite (rdc_mid b pre c (mid ++ post) C); cbv iota beta.
    assert (NC : c <> NUL).
    { intros ->. apply (cs_nonul _ _ C). apply in_or_app; right; left; reflexivity. }
    replace (y ++ c :: mid) with ((y ++ [c]) ++ mid) in * by (rewrite <- app_assoc; reflexivity).
    destruct (append_c_ok ns y c T (fits_app_l _ _ F)) as (ns' & E & T'). rewrite E; cbv iota beta.
    destruct (Ascii.eqb_spec c NUL); [contradiction|].
    replace (len pre + 1) with (len (pre ++ [c])) by (unfold len; rewrite app_length; cbn [length]; lia).
    apply (IH (pre ++ [c]) post); auto. rewrite C, <- !app_assoc; reflexivity.
Qed.
Lemma substr_ok v x i n : txt v x -> sized i -> sized n -> (i + n < 2 ^ 64 \/ n = all_ones) ->
  exists v', substr_s v i n = Some v' /\ txt v' (cut_out x i n).
Proof.
  intros T SI SN H. unfold sized in *. destruct v as [b|].
  2:{ destruct T as (F & ->). unfold cut_out; cbn [length]. rewrite skipn_nil, firstn_nil. cbn [substr_s].
      apply assign_ok; [exact F|exact nonul_nil]. }
  cbn [substr_s]. rewrite (txt_size _ _ T). destruct T as (F & T). unfold cut_out, len.
  destruct (Z.geb_spec i (Z.of_nat (length x))) as [G|G].
  { exists None; split; [reflexivity|]. rewrite (Z.min_r i), Nat2Z.id, skipn_all, firstn_nil by lia. split; [exact fits_nil|reflexivity]. }
  assert (F' := F); unfold fits in F. rewrite (Z.min_l i) by lia.
  set (num := if n =? npos then w (Z.of_nat (length x) - i)
              else if w (i + n) >=? Z.of_nat (length x) then w (Z.of_nat (length x) - i) else n).
  assert (HN : num = Z.min n (Z.of_nat (length x) - i)).
  { unfold num. rewrite all_ones_npos, (wsmall (Z.of_nat (length x) - i)) by lia.
    destruct (Z.eqb_spec n all_ones) as [->|NA]; [unfold all_ones; lia|].
    destruct H as [H|H]; [|contradiction]. rewrite wsmall by lia. destruct (Z.geb_spec (i + n) (Z.of_nat (length x))); lia. }
  cbv zeta; fold num. clearbody num. rewrite (wsmall (num + 2)), (wsmall (i + num)) by lia.
  destruct (grow_copy None [] (num + 2) (conj fits_nil eq_refl)) as (b0 & m & E & C & L); [unfold len; cbn [length]; lia|].
  rewrite E; cbv iota beta. replace (i + num - i) with num by lia.
  set (mid := firstn (Z.to_nat num) (skipn (Z.to_nat i) x)).
  assert (LM : length mid = Z.to_nat num) by (unfold mid; rewrite firstn_length, skipn_length; lia).
  assert (EQ : firstn (Z.to_nat (Z.min n (Z.of_nat (length x)))) (skipn (Z.to_nat i) x) = mid).
  { unfold mid. subst num. destruct (Z.le_gt_cases n (Z.of_nat (length x) - i)).
    - f_equal; lia.
    - rewrite !firstn_all2; [reflexivity|rewrite skipn_length; lia..]. }
  rewrite EQ. assert (DX : x = firstn (Z.to_nat i) x ++ mid ++ skipn (Z.to_nat num) (skipn (Z.to_nat i) x))
    by (unfold mid; rewrite firstn_skipn, firstn_skipn; reflexivity).
  rewrite <- LM. replace i with (len (firstn (Z.to_nat i) x)) by (unfold len; rewrite firstn_length; lia).
  destruct (sub_loop_ok b mid (firstn (Z.to_nat i) x) (skipn (Z.to_nat num) (skipn (Z.to_nat i) x)) (Some b0) []) as (v' & E' & T').
  - rewrite T; f_equal; exact DX.
  - split; [exact fits_nil|exact C].
  - unfold fits; cbn [app]. lia.
  - exists v'; split; [exact E'|exact T'].
Qed.

(** at *)
Lemma at_ok v x i : txt v x -> sized i ->
  exists c, at_s v i = Some c /\ match c with Some c => char_at x i c | None => Z.of_nat (length x) <= i end.
Proof.
  intros T SI; unfold sized in *; unfold at_s; rewrite (txt_size _ _ T); unfold len.
  destruct (Z.geb_spec i (Z.of_nat (length x))) as [G|G]; [exists None; split; [reflexivity|lia]|].
  destruct T as (F & T); destruct v as [b|]; [|subst; cbn in G; lia]. cbv iota beta.
  destruct (nth_error x (Z.to_nat i)) as [c|] eqn:Q; [|apply nth_error_None in Q; lia].
  apply cs_holds in T; destruct (proj1 T _ _ Q) as (Q1 & _).
  pose proof (rdc_nth b _ _ Q1) as R. rewrite Z2Nat.id in R by lia. rewrite R. exists (Some c); split; [reflexivity|split; [lia|exact Q]].
Qed.
Lemma put_in v x i c u : txt v x -> 0 <= i -> replaced x i c u -> exists v', put_s v i c = Some (v', true) /\ txt v' u.
Proof.
  intros T SI (p & d & q & -> & LP & R1 & R2); unfold put_s; rewrite (txt_size _ _ T); unfold len.
  destruct (Z.geb_spec i (Z.of_nat (length (p ++ d :: q)))) as [G|G]; [rewrite app_length in G; cbn [length] in G; lia|].
  destruct T as (F & T); destruct v as [b|]; [|destruct p; discriminate]. cbv iota beta.
  assert (BL := cs_len _ _ T). rewrite app_length in BL; cbn [length] in BL.
  destruct (wrc_spec b (length p) c ltac:(lia)) as (b' & E & L & N). rewrite <- LP, E.
  exists (Some b'); split; [reflexivity|]. apply cs_holds in T; destruct T as (C1 & C2).
  destruct (Ascii.eqb_spec c NUL) as [->|NC].
  - rewrite (R2 eq_refl). split; [exact (fits_app_l _ _ F)|]. apply cs_holds; split; [|rewrite N, Nat.eqb_refl; reflexivity].
    intros j e Q. assert (J : (j < length p)%nat) by (apply nth_error_Some; congruence).
    rewrite N. destruct (Nat.eqb_spec j (length p)); [lia|]. apply C1. rewrite nth_error_app1 by lia. exact Q.
  - rewrite (R1 NC). split; [unfold fits in *; rewrite app_length in *; cbn [length] in *; lia|]. apply cs_holds; split.
    + intros j e Q; rewrite N. destruct (Nat.eqb_spec j (length p)) as [->|K].
      * rewrite nth_error_app2, Nat.sub_diag in Q by lia. injection Q as <-; auto.
      * apply C1. destruct (Nat.lt_ge_cases j (length p)).
        -- rewrite nth_error_app1 in * by lia. exact Q.
        -- rewrite nth_error_app2 in * by lia. destruct (j - length p)%nat eqn:J; [lia|exact Q].
    + rewrite N. rewrite app_length in *; cbn [length] in *. destruct (Nat.eqb_spec (length p + S (length q)) (length p)); [lia|exact C2].
Qed.
Lemma put_out v x i c : txt v x -> Z.of_nat (length x) <= i -> put_s v i c = Some (v, false).
Proof.
  intros T G; unfold put_s; rewrite (txt_size _ _ T); unfold len. destruct (Z.geb_spec i (Z.of_nat (length x))); [reflexivity|lia].
Qed.
Lemma empty_ok v x : txt v x -> exists b, empty_s v = Some b /\ (b = true <-> x = []).
Proof.
  intros T; pose proof (txt_nonul _ _ T) as NN; destruct T as (F & T); destruct v as [b|]; cbn [empty_s].
  - rewrite (rdc_first _ _ T). eexists; split; [reflexivity|]. destruct x as [|c x]; cbn [hd]; [tauto|].
    destruct (Ascii.eqb_spec c NUL) as [->|N]; [exfalso; apply NN; left; reflexivity|]. split; discriminate.
  - exists true; subst; tauto.
Qed.

(** Programs *)
Lemma srel_get s t l x : srel s t -> t l = Some x -> exists v, s l = Some v /\ txt v x.
Proof. intros R E; specialize (R l); rewrite E in R. destruct (s l) as [v|]; [eauto|contradiction]. Qed.
Lemma srel_none s t l : srel s t -> t l = None -> s l = None.
Proof. intros R E; specialize (R l); rewrite E in R. destruct (s l) as [v|]; [contradiction|reflexivity]. Qed.
Lemma srel_set s t l v x : srel s t -> txt v x -> srel (mset s l (Some v)) (mset t l (Some x)).
Proof.
  intros R T k. destruct (Nat.eq_dec k l) as [->|N]; [now rewrite !mset_eq|]. rewrite !mset_ne by exact N. apply R.
Qed.
Lemma srel_same s t l v x : srel s t -> t l = Some x -> txt v x -> srel (mset s l (Some v)) t.
Proof.
  intros R E T k. destruct (Nat.eq_dec k l) as [->|N]; [now rewrite mset_eq, E|]. rewrite mset_ne by exact N. apply R.
Qed.
Lemma ptr_lit s t l e u : srel s t -> arg_text t e u -> not_own l e -> ptr_of s l e = Some (PLit u) /\ no_nul u /\ fits u.
Proof.
  intros R A O; destruct A as [u NN F|m i x E L].
  - auto.
  - cbn [not_own] in O. destruct (srel_get _ _ _ _ R E) as (v & Ev & T). cbn [ptr_of]; rewrite Ev; cbv iota beta.
    assert (NN := txt_nonul _ _ T). destruct T as (F & T). split; [|split].
    + destruct v as [b|].
      * destruct (Nat.eqb_spec m l); [contradiction|]. rewrite (cs_skip _ _ _ T L). reflexivity.
      * subst x; cbn [length] in L. destruct i; [reflexivity|lia].
    + intro I; apply NN. rewrite <- (firstn_skipn i x). apply in_or_app; auto.
    + unfold fits in *; rewrite skipn_length; lia.
Qed.
Lemma ptr_load s t l e u v x : srel s t -> s l = Some v -> txt v x -> arg_text t e u ->
  exists p, ptr_of s l e = Some p /\ load v p = Some u.
Proof.
  intros R El T A. destruct e as [|e|m i].
  - inversion A.
  - inversion A; subst. exists (PLit u); auto.
  - destruct (Nat.eq_dec m l) as [->|N].
    + inversion A as [|m' i' x' E L]; subst. cbn [ptr_of]. rewrite El; cbv iota beta.
      destruct (srel_get _ _ _ _ R E) as (v' & Ev & (F & T')). assert (v' = v) as -> by congruence.
      destruct v as [b|]; [|subst x'; cbn [length] in L; destruct i; [exists (PLit []); auto|lia]].
      rewrite Nat.eqb_refl. exists (POwn i); split; [reflexivity|]. cbn [load]. apply cs_skip; assumption.
    + destruct (ptr_lit s t l (CStr m i) u R A N) as (E & _). exists (PLit u); auto.
Qed.

Lemma arg_not_own s l e u : s l = None -> arg_text s e u -> not_own l e.
Proof. intros E A; destruct A; cbn; [exact I|]. intros ->; congruence. Qed.

Lemma sstep_ok s t o : srel s t -> callable t o ->
  exists s' r t', sstep s o = Some (s', r) /\ sspec t o t' r /\ srel s' t'.
Proof.
  intros R (t' & r & H). inversion H; subst; cbn [sstep].
  - rewrite (srel_none _ _ _ R H0). do 3 eexists; split; [reflexivity|split; [exact H|]].
    apply srel_set; [exact R|split; [exact fits_nil|reflexivity]].
  - rewrite (srel_none _ _ _ R H0). do 3 eexists; split; [reflexivity|split; [exact H|]].
    apply srel_set; [exact R|split; [exact fits_nil|reflexivity]].
  - rewrite (srel_none _ _ _ R H0).
    destruct (ptr_lit s t l e t0 R H1 (arg_not_own _ _ _ _ H0 H1)) as (-> & NN & F); cbv iota beta.
    destruct (assign_ok None t0 F NN) as (v' & E & T). unfold keep; rewrite E.
    do 3 eexists; split; [reflexivity|split; [exact H|apply srel_set; assumption]].
  - rewrite (srel_none _ _ _ R H0). destruct (srel_get _ _ _ _ R H1) as (v & Ev & T). rewrite Ev; cbv iota beta.
    rewrite (txt_c_str _ _ T); cbv iota beta. destruct (assign_ok None t0 (proj1 T) (txt_nonul _ _ T)) as (v' & E & T').
    unfold keep; rewrite E. do 3 eexists; split; [reflexivity|split; [exact H|apply srel_set; assumption]].
  - destruct (srel_get _ _ _ _ R H0) as (v & Ev & T). rewrite Ev; cbv iota beta.
    do 3 eexists; split; [reflexivity|split; [exact H|]]. intro k.
    destruct (Nat.eq_dec k l) as [->|N]; [now rewrite !mset_eq|rewrite !mset_ne by exact N; apply R].
  - destruct (srel_get _ _ _ _ R H0) as (v & Ev & T). rewrite Ev; cbn [ptr_of assign_s]; cbv iota beta.
    destruct (clear_ok _ _ T) as (v' & E & T'). unfold keep; rewrite E.
    do 3 eexists; split; [reflexivity|split; [exact H|apply srel_set; assumption]].
  - destruct (srel_get _ _ _ _ R H0) as (v & Ev & T). rewrite Ev; cbv iota beta.
    destruct (ptr_lit s t l e u R H1 H2) as (-> & NN & F); cbv iota beta.
    destruct (assign_ok v u F NN) as (v' & E & T'). unfold keep; rewrite E.
    do 3 eexists; split; [reflexivity|split; [exact H|apply srel_set; assumption]].
  - destruct (srel_get _ _ _ _ R H0) as (v & Ev & T). rewrite Ev; cbv iota beta.
    destruct (ptr_lit s t l e u R H1 H2) as (-> & NN & F); cbv iota beta.
    destruct (append_ok v t0 u T NN H3) as (v' & E & T'). unfold keep; rewrite E.
    do 3 eexists; split; [reflexivity|split; [exact H|apply srel_set; assumption]].
  - destruct (srel_get _ _ _ _ R H0) as (v & Ev & T). rewrite Ev; cbv iota beta.
    destruct (append_c_ok v t0 c T H1) as (v' & E & T'). unfold keep; rewrite E.
    do 3 eexists; split; [reflexivity|split; [exact H|apply srel_set; assumption]].
  - destruct (srel_get _ _ _ _ R H0) as (v & Ev & T). rewrite Ev; cbv iota beta.
    destruct (clear_ok _ _ T) as (v' & E & T'). unfold keep; rewrite E.
    do 3 eexists; split; [reflexivity|split; [exact H|apply srel_set; assumption]].
  - destruct (srel_get _ _ _ _ R H0) as (v & Ev & T). rewrite Ev; cbv iota beta.
    destruct (ptr_load s t' l e u v t0 R Ev T H1) as (p & -> & Lp); cbv iota beta.
    unfold compare_s; rewrite Lp, (txt_c_str _ _ T).
    do 3 eexists; split; [reflexivity|split; [|exact R]]. exact (sp_compare t' l e t0 u _ H0 H1 (strcmp_ok t0 u)).
  - destruct (srel_get _ _ _ _ R H0) as (v & Ev & T). rewrite Ev; cbv iota beta.
    destruct (empty_ok _ _ T) as (b' & E & B). rewrite E. do 3 eexists; split; [reflexivity|split; [|exact R]].
    exact (sp_empty t' l t0 b' H0 B).
  - destruct (srel_get _ _ _ _ R H0) as (v & Ev & T). rewrite Ev; cbv iota beta. rewrite (txt_size _ _ T).
    do 3 eexists; split; [reflexivity|split; [exact H|exact R]].
  - destruct (srel_get _ _ _ _ R H0) as (v & Ev & T). rewrite Ev; cbv iota beta. rewrite (txt_c_str _ _ T).
    do 3 eexists; split; [reflexivity|split; [exact H|exact R]].
  - destruct (srel_get _ _ _ _ R H0) as (v & Ev & T). rewrite Ev; cbv iota beta.
    destruct (find_ok v t0 c i T H1) as (z' & E & B). rewrite E. do 3 eexists; split; [reflexivity|split; [|exact R]].
    exact (sp_find t' l c i z' t0 H0 H1 B).
  - destruct (srel_get _ _ _ _ R H0) as (v & Ev & T). rewrite Ev; cbv iota beta.
    destruct (find_last_ok v t0 c i T H1) as (z' & E & B). rewrite E. do 3 eexists; split; [reflexivity|split; [|exact R]].
    exact (sp_find_last t' l c i z' t0 H0 H1 B).
  - destruct (srel_get _ _ _ _ R H0) as (v & Ev & T). rewrite Ev; cbv iota beta.
    destruct (trim_ok v t0 T) as (v' & u' & E & B & T'). unfold keep; rewrite E.
    do 3 eexists; split; [reflexivity|split; [exact (sp_trim t l t0 u' H0 B)|apply srel_set; assumption]].
  - destruct (srel_get _ _ _ _ R H0) as (v & Ev & T). rewrite Ev; cbv iota beta.
    destruct (erase_ok v t0 i n u T H1 H2 H3 H4 H5) as (v' & E & T'). unfold keep; rewrite E.
    do 3 eexists; split; [reflexivity|split; [exact H|apply srel_set; assumption]].
  - rewrite (srel_none _ _ _ R H0). destruct (srel_get _ _ _ _ R H1) as (v & Ev & T). rewrite Ev; cbv iota beta.
    destruct (substr_ok v t0 i n T H2 H3 H4) as (v' & E & T'). unfold keep; rewrite E.
    do 3 eexists; split; [reflexivity|split; [exact H|apply srel_set; assumption]].
  - destruct (srel_get _ _ _ _ R H0) as (v & Ev & T). rewrite Ev; cbv iota beta.
    destruct (at_ok v t0 i T H1) as (c' & E & B). rewrite E. do 3 eexists; split; [reflexivity|split; [|exact R]].
    exact (sp_at t' l i c' t0 H0 H1 B).
  - destruct (srel_get _ _ _ _ R H0) as (v & Ev & T). rewrite Ev; cbv iota beta.
    destruct (put_in v t0 i c u T H1 H2) as (v' & E & T'). rewrite E.
    do 3 eexists; split; [reflexivity|split; [exact H|apply srel_set; assumption]].
  - destruct (srel_get _ _ _ _ R H0) as (v & Ev & T). rewrite Ev; cbv iota beta.
    rewrite (put_out v t0 i c T H1). do 3 eexists; split; [reflexivity|split; [exact H|]].
    exact (srel_same s t' l v t0 R H0 T).
Qed.

Lemma srun_ok : forall ops s t, srel s t -> all_callable t ops ->
  exists s' rs t', srun s ops = Some (s', rs) /\ sspecs t ops t' rs /\ srel s' t'.
Proof.
  induction ops as [|o ops IH]; intros s t R A; cbn [srun].
  - exists s, [], t; split; [reflexivity|split; [constructor|exact R]].
  - destruct A as (A1 & A2). destruct (sstep_ok s t o R A1) as (s1 & r & t1 & E & S & R1). rewrite E; cbv iota beta.
    destruct (IH s1 t1 R1 (A2 _ _ S)) as (s2 & rs & t2 & E2 & S2 & R2). rewrite E2.
    exists s2, (r :: rs), t2; split; [reflexivity|split; [econstructor; eassumption|exact R2]].
Qed.
