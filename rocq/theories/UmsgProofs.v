(** Proofs about the list of user messages. *)
From Coq Require Import List ZArith Bool String Lia.
From Verif Require Import UmsgModel UmsgSpec.
Import ListNotations.
Local Open Scope Z_scope.
Notation length := List.length.

Lemma wr_outside l : forall m a x, x < a \/ a + Z.of_nat (length l) <= x -> wr m a l x = m x.
Proof.
  induction l as [|b l IH]; intros m a x H; cbn [wr]; [reflexivity|]. cbn [List.length] in H.
  rewrite IH by lia. unfold set. destruct (Z.eqb_spec x a); [lia|reflexivity].
Qed.
Lemma wr_inside l : forall m a i b, nth_error l i = Some b -> wr m a l (a + Z.of_nat i) = b.
Proof.
  induction l as [|c l IH]; intros m a i b H; [destruct i; discriminate H|]. destruct i as [|i]; cbn [wr nth_error] in *.
  - injection H as ->. rewrite wr_outside by lia. unfold set. rewrite Z.add_0_r, Z.eqb_refl. reflexivity.
  - replace (a + Z.of_nat (S i)) with (a + 1 + Z.of_nat i) by lia. apply IH. exact H.
Qed.
Lemma rd_length n : forall m a, length (rd m a n) = n.
Proof. induction n as [|n IH]; intros m a; cbn [rd List.length]; [reflexivity|]. rewrite IH. reflexivity. Qed.
Lemma rd_nth n : forall m a i, (i < n)%nat -> nth_error (rd m a n) i = Some (m (a + Z.of_nat i)).
Proof.
  induction n as [|n IH]; intros m a i H; [lia|]. destruct i as [|i]; cbn [rd nth_error].
  - rewrite Z.add_0_r. reflexivity.
  - rewrite IH by lia. do 2 f_equal. lia.
Qed.
Lemma rd_wr l : forall m a, rd (wr m a l) a (length l) = l.
Proof.
  induction l as [|b l IH]; intros m a; cbn [List.length rd wr]; [reflexivity|].
  rewrite IH, wr_outside by lia. unfold set. rewrite Z.eqb_refl. reflexivity.
Qed.
(** what is written over the bytes is undone by writing them back *)
Lemma restore m a l x : wr (wr m a l) a (rd m a (length l)) x = m x.
Proof.
  destruct (Z_lt_ge_dec x a) as [H|H].
  - rewrite !wr_outside; auto.
  - destruct (Z_lt_ge_dec x (a + Z.of_nat (length l))) as [H'|H'].
    + replace x with (a + Z.of_nat (Z.to_nat (x - a))) by lia. apply wr_inside. apply rd_nth. lia.
    + rewrite !wr_outside; [reflexivity|lia|rewrite rd_length; lia].
Qed.

Lemma le4_sum v : 0 <= v < 2 ^ 32 ->
  v mod 256 + 256 * (v / 256 mod 256) + 65536 * (v / 65536 mod 256) + 16777216 * (v / 16777216 mod 256) = v.
Proof.
  intros H. change 65536 with (256 * 256). change 16777216 with (256 * 256 * 256).
  rewrite <- !Z.div_div by lia.
  pose proof (Z_div_mod_eq_full v 256). pose proof (Z_div_mod_eq_full (v / 256) 256).
  pose proof (Z_div_mod_eq_full (v / 256 / 256) 256). pose proof (Z_div_mod_eq_full (v / 256 / 256 / 256) 256).
  assert (v / 256 / 256 / 256 / 256 = 0).
  { rewrite !Z.div_div by lia. apply Z.div_small. exact H. }
  lia.
Qed.
Lemma sx32_mod v : sx32 (v mod 2 ^ 32) mod 2 ^ 32 = v mod 2 ^ 32.
Proof.
  unfold sx32. destruct (Z.ltb_spec (v mod 2 ^ 32) (2 ^ 31)).
  - rewrite Z.mod_mod by lia. reflexivity.
  - replace (v mod 2 ^ 32 - 2 ^ 32) with (v mod 2 ^ 32 + (-1) * 2 ^ 32) by ring. rewrite Z.mod_add by lia. apply Z.mod_mod. lia.
Qed.
Lemma sx32_range v : - 2 ^ 31 <= sx32 (v mod 2 ^ 32) < 2 ^ 31.
Proof. unfold sx32. pose proof (Z.mod_pos_bound v (2 ^ 32)). destruct (Z.ltb_spec (v mod 2 ^ 32) (2 ^ 31)); lia. Qed.
Lemma sx32_id v d : - 2 ^ 31 <= d < 2 ^ 31 -> v mod 2 ^ 32 = d mod 2 ^ 32 -> sx32 (v mod 2 ^ 32) = d.
Proof.
  intros H E. rewrite E. unfold sx32. destruct (Z_lt_ge_dec d 0).
  - replace (d mod 2 ^ 32) with (d + 2 ^ 32). 2:{ apply Z.mod_unique with (q := -1); lia. }
    destruct (Z.ltb_spec (d + 2 ^ 32) (2 ^ 31)); lia.
  - rewrite Z.mod_small by lia. destruct (Z.ltb_spec d (2 ^ 31)); lia.
Qed.

Lemma jump_patch w m target detour :
  jump w (patch m target detour) target = Some ((target + 5 + sx32 ((detour - (target + 5)) mod 2 ^ 32)) mod 2 ^ w).
Proof.
  unfold jump, patch. set (v := (detour - (target + 5)) mod 2 ^ 32).
  change 5%nat with (length (233 :: le4 v)). rewrite rd_wr. unfold le4. rewrite Z.eqb_refl.
  rewrite le4_sum by (apply Z.mod_pos_bound; lia). reflexivity.
Qed.

Lemma mod_mod_le a w : 32 <= w -> (a mod 2 ^ w) mod 2 ^ 32 = a mod 2 ^ 32.
Proof.
  intros H. replace w with (32 + (w - 32)) by lia. rewrite Z.pow_add_r by lia.
  rewrite Z.rem_mul_r by (try apply Z.pow_nonzero; lia).
  rewrite (Z.mul_comm (2 ^ 32)), Z.mod_add by lia. apply Z.mod_mod. lia.
Qed.

Lemma reach w target detour : 32 <= w -> 0 <= detour < 2 ^ w ->
  ((target + 5 + sx32 ((detour - (target + 5)) mod 2 ^ 32)) mod 2 ^ w = detour <-> near w target detour).
Proof.
  intros W D. split.
  - intros E. exists (sx32 ((detour - (target + 5)) mod 2 ^ 32)). split; [apply sx32_range|exact E].
  - intros (d & B & E). rewrite (sx32_id _ d B); [exact E|].
    rewrite <- E, Zminus_mod, mod_mod_le, <- Zminus_mod by exact W. f_equal. lia.
Qed.
Lemma near_32 target detour : 0 <= detour < 2 ^ 32 -> near 32 target detour.
Proof.
  intros D. apply reach; [lia|exact D|]. rewrite Zplus_mod, sx32_mod, <- Zplus_mod.
  replace (target + 5 + (detour - (target + 5))) with detour by lia. apply Z.mod_small. exact D.
Qed.

Lemma loop_spec game : forall l, loop game l = l ++ game.
Proof.
  induction game as [|[n z] game IH]; intros l; cbn [loop]; [rewrite app_nil_r; reflexivity|].
  rewrite IH. cbn [u_name u_size]. rewrite <- app_assoc. reflexivity.
Qed.

Lemma find_from_spec name l : forall i,
  match find_from name i l with
  | (j, Some z) => exists k u, j = i + Z.of_nat k /\ nth_error l k = Some u /\ u_name u = name /\ u_size u = z /\
      (forall k' u', (k' < k)%nat -> nth_error l k' = Some u' -> u_name u' <> name)
  | (j, None) => j = -1 /\ forall u, In u l -> u_name u <> name
  end.
Proof.
  induction l as [|u l IH]; intros i; cbn [find_from].
  - split; [reflexivity|]. intros u [].
  - destruct (String.eqb_spec (u_name u) name) as [E|N].
    + exists 0%nat, u. split; [lia|]. split; [reflexivity|]. split; [exact E|]. split; [reflexivity|]. intros k' u' H. lia.
    + specialize (IH (i + 1)). destruct (find_from name (i + 1) l) as [j [z|]].
      * destruct IH as (k & u' & J & X & Y & Z & F). exists (S k), u'. split; [lia|]. split; [exact X|]. split; [exact Y|].
        split; [exact Z|]. intros k' u'' H Q. destruct k' as [|k']; [injection Q as <-; exact N|]. apply (F k'); [lia|exact Q].
      * destruct IH as [J F]. split; [exact J|]. intros u' [<-|H]; [exact N|]. apply F. exact H.
Qed.
