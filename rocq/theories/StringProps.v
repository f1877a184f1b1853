(** C30: SourceHook::String behaves as a character sequence. *)
From Coq Require Import List ZArith Arith Ascii Bool Lia.
From Verif Require Import Base ListModel VecProofs StrModel StrSpec StringModel StringSpec StringProofs.
Import ListNotations.
Local Open Scope Z_scope.

(** Every program of allowed calls runs without undefined behaviour, every call has
    the effect and the result which the specification of sequences demands, and at
    the end the text of each String is the sequence of the specification. *)
Theorem C30_sequences (ops : list sop) : all_callable no_texts ops ->
  exists s rs t, srun no_strs ops = Some (s, rs) /\ sspecs no_texts ops t rs /\
    forall l, match s l with Some v => c_str v = t l | None => t l = None end.
Proof.
  intro A. destruct (srun_ok ops no_strs no_texts (fun _ => I) A) as (s & rs & t & E & S & R).
  exists s, rs, t; split; [exact E|split; [exact S|]]. intro l; specialize (R l).
  destruct (s l) as [v|], (t l) as [x|]; try contradiction; [exact (txt_c_str _ _ R)|reflexivity].
Qed.
Print Assumptions C30_sequences.

Definition word (l : list nat) : str := map ascii_of_nat l.
Definition w_ab : str := ["a"; "b"; " "]%char.
Definition w_cd : str := [" "; "c"; "d"]%char.
Definition prog : list sop :=
  [SNew 0 (Some (CLit w_ab)); SAppend 0 (CLit w_cd); SSubstr 1 0 1 3; SFind 1 "b"%char 0; STrim 1].

Example prog_callable : all_callable no_texts prog.
Proof.
  assert (F : forall s : str, (length s < 1000)%nat -> fits s) by (intros s H; unfold fits; lia).
  assert (N1 : no_nul w_ab) by (intros [H|[H|[H|[]]]]; discriminate).
  assert (N2 : no_nul w_cd) by (intros [H|[H|[H|[]]]]; discriminate).
  assert (F1 : fits w_ab) by (apply F; cbn; lia). assert (F2 : fits w_cd) by (apply F; cbn; lia).
  unfold prog; cbn [all_callable]. split.
  { do 2 eexists. apply sp_new_str; [reflexivity|constructor; assumption]. }
  intros s1 r1 Hs1. inversion Hs1; subst; clear Hs1. match goal with A : arg_text _ (CLit _) _ |- _ => inversion A; subst; clear A end. split.
  { do 2 eexists. apply sp_append with (t := w_ab) (u := w_cd); [reflexivity|constructor; assumption|exact I|apply F; cbn; lia]. }
  intros s2 r2 Hs2. inversion Hs2; subst; clear Hs2.
  match goal with A : arg_text _ (CLit _) _ |- _ => inversion A; subst; clear A end.
  match goal with A : mset _ _ _ _ = Some t |- _ => injection A as <- end. split.
  { do 2 eexists. apply sp_substr with (t := w_ab ++ w_cd); [reflexivity|reflexivity|unfold sized; lia|unfold sized; lia|lia]. }
  intros s3 r3 Hs3. inversion Hs3; subst; clear Hs3.
  match goal with A : mset _ _ _ _ = Some t |- _ => injection A as <- end. split.
  { do 2 eexists. eapply sp_find with (z := 0); [reflexivity|unfold sized; lia|]. right.
    split; [lia|split; [split; [lia|reflexivity]|intros; lia]]. }
  intros s4 r4 Hs4. inversion Hs4; subst; clear Hs4. split; [|intros; exact I].
  do 2 eexists. eapply sp_trim with (u := ["b"%char]); [reflexivity|].
  exists ["b"; " "; " "]%char. split.
  - exists []; split; [reflexivity|split; [constructor|]]. intros (c & u & Q & W). injection Q as <- _.
    cbn in W. repeat (destruct W as [W|W]; [discriminate W|]). exact W.
  - exists [" "; " "]%char; split; [reflexivity|split].
    + assert (white " "%char) by (cbn; tauto). repeat constructor; assumption.
    + intros (c & u & Q & W). destruct u as [|u0 [|u1 u]]; [|discriminate|discriminate]. injection Q as <-.
      cbn in W. repeat (destruct W as [W|W]; [discriminate W|]). exact W.
Qed.

(** The text of a String never contains the terminator, and whatever is in the rest of
    the array does not matter: the results depend on the texts only. *)
Theorem C30_text (v v' : sobj) (x : str) (c : ascii) (i n : Z) : fits x ->
  c_str v = Some x -> c_str v' = Some x -> sized i -> sized n ->
  find_s v c i = find_s v' c i /\ at_s v i = at_s v' i /\ size_s v = Some (Z.of_nat (length x)).
Proof.
  intros F E E' I N.
  assert (T : forall v, c_str v = Some x -> txt v x) by (intros [b|] Q; [split; auto|injection Q as <-; split; auto]).
  assert (U : forall z z', first_from x c i z -> first_from x c i z' -> z = z').
  { assert (K : forall z z', first_from x c i z -> first_from x c i z' -> z' < z -> False).
    { intros z z' [(-> & A)|(A1 & A2 & A3)] [(-> & B)|(B1 & B2 & B3)] L.
      - lia.
      - exact (A z' B1 B2).
      - unfold all_ones in L. destruct A2 as (_ & A2). assert (Z.to_nat z < length x)%nat by (apply nth_error_Some; congruence).
        unfold fits in F; lia.
      - exact (A3 z' (conj B1 L) B2). }
    intros z z' P Q. destruct (Z.lt_trichotomy z z') as [L|[L|L]]; [exfalso; exact (K _ _ Q P L)|exact L|exfalso; exact (K _ _ P Q L)]. }
  split; [|split].
  - destruct (find_ok v x c i (T v E) I) as (z & Z1 & Z2), (find_ok v' x c i (T v' E') I) as (z' & Z1' & Z2').
    rewrite Z1, Z1', (U _ _ Z2 Z2'); reflexivity.
  - destruct (at_ok v x i (T v E) I) as (a & A1 & A2), (at_ok v' x i (T v' E') I) as (a' & A1' & A2').
    rewrite A1, A1'. f_equal.
    assert (B : forall d, char_at x i d -> Z.of_nat (length x) <= i -> False).
    { intros d (_ & Q) L. assert (Z.to_nat i < length x)%nat by (apply nth_error_Some; congruence). unfold sized in I; lia. }
    destruct a as [a|], a' as [a'|]; [|exfalso; eauto|exfalso; eauto|reflexivity].
    destruct A2 as (_ & A2), A2' as (_ & A2'); congruence.
  - exact (txt_size _ _ (T v E)).
Qed.
Print Assumptions C30_text.
Example C30_text_ex :
  let v := Some (map (@Some ascii) ["a"%char; NUL; "z"%char]) in let v' := Some [Some "a"%char; Some NUL; None] in
  c_str v = Some ["a"%char] /\ c_str v' = Some ["a"%char] /\ v <> v'.
Proof. split; [reflexivity|split; [reflexivity|discriminate]]. Qed.

(** Finding: the bounds check of erase compares start + num with len - start instead
    of len: a range which ends behind len - start is taken to reach the end of the
    text.  All such calls remove too much. *)
Theorem C30_erase_to_end (b : ubuf) (p d q : str) : cs b = Some (p ++ d ++ q) -> fits (p ++ d ++ q) ->
  (length q < length p)%nat -> exists v', erase_s (Some b) (Z.of_nat (length p)) (Z.of_nat (length d)) = Some v' /\ c_str v' = Some p.
Proof.
  intros C F L. destruct (erase_core b p (d ++ q) []) with (n := Z.of_nat (length d)) as (v' & E & T).
  - now rewrite app_nil_r.
  - now rewrite app_nil_r.
  - rewrite app_nil_r. unfold len. unfold fits in F. rewrite !app_length in *.
    rewrite !wsmall by lia.
    destruct (Z.gtb_spec (Z.of_nat (length p) + Z.of_nat (length d)) (Z.of_nat (length p + (length d + length q)) - Z.of_nat (length p)));
      [|lia]. rewrite orb_true_r. lia.
  - exists v'; split; [exact E|]. rewrite app_nil_r in T. exact (txt_c_str _ _ T).
Qed.
Print Assumptions C30_erase_to_end.

(** "abcdef", erase(3, 1): "abc" instead of "abcef" *)
Theorem C30_erase_refuted :
  exists (x u : str) (i n : Z) s rs, no_nul x /\ fits x /\ sized i /\ sized n /\ i + n <= Z.of_nat (length x) /\
    srun no_strs [SNew 0 (Some (CLit x)); SErase 0 i n; SText 0] = Some (s, rs) /\ nth_error rs 2 = Some (SStr u) /\ ~ remove x i n u.
Proof.
  exists ["a"; "b"; "c"; "d"; "e"; "f"]%char, ["a"; "b"; "c"]%char, 3, 1. do 2 eexists.
  split; [intro H; cbn in H; repeat (destruct H as [H|H]; [discriminate H|]); exact H|].
  split; [unfold fits; cbn [length]; lia|]. split; [unfold sized; lia|]. split; [unfold sized; lia|]. split; [cbn [length]; lia|].
  split; [vm_compute; reflexivity|split; [reflexivity|]].
  intros (a & d & c & E1 & E2 & L & H).
  apply (f_equal (@length ascii)) in E1. apply (f_equal (@length ascii)) in E2. rewrite !app_length in *; cbn [length] in *.
  destruct H as [H|(H & ->)]; cbn [length] in *; lia.
Qed.
Print Assumptions C30_erase_refuted.

(** Finding: erase behind the end of the text writes outside of the array *)
Theorem C30_erase_beyond_refuted : srun no_strs [SNew 0 (Some (CLit ["a"%char])); SErase 0 5 npos] = None.
Proof. vm_compute; reflexivity. Qed.
Print Assumptions C30_erase_beyond_refuted.

(** Finding: find_last_of with its default argument never finds anything *)
Theorem C30_find_last_default_refuted (v : sobj) (x : str) (c : ascii) : fits x -> c_str v = Some x -> find_last_s v c npos = Some npos.
Proof.
  intros F E; unfold find_last_s, size_s; rewrite E; cbv iota beta. unfold len, npos, size_mod. unfold fits in F.
  destruct (Z.ltb_spec (Z.of_nat (length x)) 1); [reflexivity|].
  destruct (Z.geb_spec (2 ^ 64 - 1) (Z.of_nat (length x))); [reflexivity|lia].
Qed.
Print Assumptions C30_find_last_default_refuted.

(** Finding: toLower clears a bit which is not set in upper-case letters; it changes no text *)
Lemma upper_bit5 c : (65 <=? nat_of_ascii c)%nat && (nat_of_ascii c <=? 90)%nat = true -> clear_bit5 c = c.
Proof.
  destruct c as [b0 b1 b2 b3 b4 b5 b6 b7]. destruct b0, b1, b2, b3, b4, b5, b6, b7; vm_compute; intro H; try discriminate H; reflexivity.
Qed.
Lemma lower_loop_id b x : cs b = Some x -> forall n i, (i + n <= length x)%nat ->
  exists b', lower_loop n b (Z.of_nat i) = Some b' /\ cs b' = Some x.
Proof.
  intros C n; revert b C; induction n as [|n IH]; intros b C i L; cbn [lower_loop]; [exists b; auto|].
  destruct (nth_error x i) as [c|] eqn:Q; [|apply nth_error_None in Q; lia].
  assert (C' := C); apply cs_holds in C'; destruct C' as (C1 & C2). destruct (C1 i c Q) as (Q1 & Q2).
  rewrite (rdc_nth _ _ _ Q1); cbv iota beta. replace (Z.of_nat i + 1) with (Z.of_nat (S i)) by lia.
  destruct ((65 <=? nat_of_ascii c)%nat && (nat_of_ascii c <=? 90)%nat) eqn:U.
  - rewrite (upper_bit5 _ U). destruct (wrc_spec b i c) as (b' & E & L' & N); [apply nth_error_Some; congruence|].
    rewrite E; cbv iota beta. apply IH; [|lia]. apply cs_holds; split.
    + intros j d J. rewrite N. destruct (Nat.eqb_spec j i) as [->|K]; [|exact (C1 j d J)]. split; [congruence|exact (proj2 (C1 i d J))].
    + rewrite N. destruct (Nat.eqb_spec (length x) i); [lia|exact C2].
  - apply IH; [exact C|lia].
Qed.
Theorem C30_lower_refuted (v : sobj) (x : str) : c_str v = Some x -> exists v', lower_s v = Some v' /\ c_str v' = Some x.
Proof.
  destruct v as [b|]; cbn [c_str lower_s]; intro E.
  - rewrite E; cbv iota beta. destruct (lower_loop_id b x E (length x) 0 ltac:(lia)) as (b' & E' & C).
    change (Z.of_nat 0) with 0 in E'. rewrite E'. exists (Some b'); auto.
  - exists None; auto.
Qed.
Print Assumptions C30_lower_refuted.
Example C30_lower_ex : exists v', lower_s (Some [Some "Q"%char; Some NUL]) = Some v' /\ c_str v' = Some ["Q"%char].
Proof. eexists; split; [vm_compute; reflexivity|reflexivity]. Qed.

(** Finding: appending (a part of) a String to itself is undefined: either Grow deletes the
    array which the argument points to, or strcat reads the terminator which it overwrites. *)
Theorem C30_self_append_refuted (v : sobj) (i : nat) : append_s v (POwn i) = None.
Proof.
  unfold append_s. destruct (size_s v) as [n|]; [|reflexivity]. destruct (load v (POwn i)) as [s|]; [|reflexivity].
  destruct (grow v (n + len s + 1) true) as [[v' m]|]; reflexivity.
Qed.
Print Assumptions C30_self_append_refuted.
