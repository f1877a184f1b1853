(** List facts missing from the standard library of this version. *)
From Coq Require Import List Arith Lia.
Import ListNotations.

Lemma skipn_skipn {A} (x y : nat) (l : list A) : skipn x (skipn y l) = skipn (x + y) l.
Proof.
  revert l. induction y as [|y IH]; intros l.
  - rewrite Nat.add_0_r. reflexivity.
  - rewrite Nat.add_succ_r. destruct l as [|a l]; [destruct x; reflexivity|]. apply IH.
Qed.

Lemma in_firstn {A} (x : A) n l : In x (firstn n l) -> In x l.
Proof.
  revert n. induction l as [|y l IH]; intros [|n]; cbn; try tauto.
  intros [->|H]; eauto.
Qed.

Lemma in_skipn {A} (x : A) n l : In x (skipn n l) -> In x l.
Proof.
  revert n. induction l as [|y l IH]; intros [|n]; cbn; try tauto.
  intros H; right; eauto.
Qed.

Lemma skipn_tl {A} n (l : list A) : skipn n (tl l) = skipn (S n) l.
Proof. destruct l; [destruct n; reflexivity|reflexivity]. Qed.

Lemma nth_error_split_at {A} (a : list A) x d : nth_error (a ++ x :: d) (length a) = Some x.
Proof. rewrite nth_error_app2, Nat.sub_diag by lia. reflexivity. Qed.

Lemma app_suffix {A} (w : list A) : forall u v x,
  u ++ v = w ++ x -> length v <= length x -> exists y, x = y ++ v.
Proof.
  induction w as [|a w IH]; intros u v x E L.
  - exists u. symmetry. exact E.
  - destruct u as [|b u].
    + cbn in E. subst v. cbn in L. rewrite app_length in L. lia.
    + cbn in E. inversion E. eauto.
Qed.

Lemma app_eq_len {A} (u w : list A) : forall v x,
  u ++ v = w ++ x -> length v = length x -> u = w /\ v = x.
Proof.
  revert w. induction u as [|a u IH]; intros [|b w] v x E L; cbn in E.
  - auto.
  - subst v. cbn in L. rewrite app_length in L. lia.
  - subst x. cbn in L. rewrite app_length in L. lia.
  - inversion E; subst. destruct (IH w v x) as [-> ->]; auto.
Qed.
