(** Proofs about the search paths. *)
From Coq Require Import List Bool String Ascii Lia.
From Verif Require Import FsModel FsSpec.
Import ListNotations.
Local Open Scope string_scope.

Lemma prefix_spec n : forall h, String.prefix n h = true <-> exists b, h = n ++ b.
Proof.
  induction n as [|c n IH]; intros h; cbn [String.prefix append].
  - split; [intros _; exists h; reflexivity|intros _; destruct h; reflexivity].
  - destruct h as [|d h].
    + split; [discriminate|]. intros (b & E). discriminate E.
    + cbn [String.prefix]. destruct (ascii_dec c d) as [->|N].
      * rewrite IH. split; intros (b & E); exists b; [rewrite E; reflexivity|injection E as ->; reflexivity].
      * split; [discriminate|]. intros (b & E). injection E as E _. congruence.
Qed.
Lemma strstr_spec n : forall h, strstr h n = true <-> mentions n h.
Proof.
  induction h as [|c h IH]; cbn [strstr].
  - rewrite orb_false_r, prefix_spec. split.
    + intros (b & E). exists "", b. exact E.
    + intros (a & b & E). destruct a; [exists b; exact E|discriminate E].
  - rewrite orb_true_iff, prefix_spec, IH. split.
    + intros [(b & E)|(a & b & E)]; [exists "", b; exact E|]. exists (String c a), b. rewrite E. reflexivity.
    + intros (a & b & E). destruct a as [|d a]; [left; exists b; exact E|]. right. injection E as -> ->. exists a, b. reflexivity.
Qed.
Lemma strstr_false n h : strstr h n = false <-> ~ mentions n h.
Proof.
  split.
  - intros E M. apply strstr_spec in M. congruence.
  - intros M. destruct (strstr h n) eqn:E; [|reflexivity]. apply strstr_spec in E. contradiction.
Qed.

Definition bad (p : string) : bool := strstr p "metamod".
Definition keep (p : string) : bool := negb (bad p).

Lemma set_same f id l : set f id l id = l.
Proof. unfold set. rewrite String.eqb_refl. reflexivity. Qed.
Lemma set_other f id l x : x <> id -> set f id l x = f x.
Proof. intros N. unfold set. apply String.eqb_neq in N. rewrite N. reflexivity. Qed.

Lemma inner_other every id l : forall f x, x <> id -> inner every id l f x = f x.
Proof.
  unfold inner. induction l as [|p l IH]; intros f x N; cbn [fold_left]; [reflexivity|].
  rewrite IH by exact N. destruct (strstr p "metamod"); [|reflexivity]. apply set_other. exact N.
Qed.

Lemma remove1_app p a l : ~ In p a -> remove1 p (a ++ p :: l)%list = (a ++ l)%list.
Proof.
  induction a as [|x a IH]; cbn [app remove1]; intros N.
  - rewrite String.eqb_refl. reflexivity.
  - destruct (String.eqb_spec x p) as [->|E]; [exfalso; apply N; left; reflexivity|].
    rewrite IH; [reflexivity|]. intros I. apply N. right. exact I.
Qed.
Lemma inner_first id l : forall f a, (forall x, In x a -> bad x = false) -> f id = (a ++ l)%list ->
  inner false id l f id = (a ++ filter keep l)%list.
Proof.
  unfold inner. induction l as [|p l IH]; intros f a A E; cbn [fold_left filter]; [exact E|].
  unfold keep at 1. unfold bad at 1. destruct (strstr p "metamod") eqn:B; cbn [negb].
  - apply IH; [exact A|]. unfold RemoveSearchPath. rewrite set_same, E. apply remove1_app.
    intros I. specialize (A p I). unfold bad in A. congruence.
  - rewrite (IH f (a ++ [p])%list).
    + rewrite <- app_assoc. reflexivity.
    + intros x I. apply in_app_iff in I. destruct I as [I|[<-|[]]]; [apply A; exact I|exact B].
    + rewrite E, <- app_assoc. reflexivity.
Qed.
Lemma filter_filter {A} (P Q : A -> bool) l : filter P (filter Q l) = filter (fun x => Q x && P x) l.
Proof.
  induction l as [|x l IH]; cbn [filter]; [reflexivity|]. destruct (Q x); cbn [filter andb]; [destruct (P x)|]; rewrite IH; reflexivity.
Qed.
Lemma inner_every id l : forall f,
  inner true id l f id = filter (fun x => negb (bad x && existsb (String.eqb x) l)) (f id).
Proof.
  unfold inner. induction l as [|p l IH]; intros f; cbn [fold_left existsb].
  - symmetry. rewrite <- (app_nil_r (f id)) at 2. generalize (f id). intros k. rewrite app_nil_r.
    induction k as [|x k IHk]; cbn [filter]; [reflexivity|]. rewrite andb_false_r. cbn [negb]. rewrite IHk. reflexivity.
  - rewrite IH. destruct (strstr p "metamod") eqn:B.
    + unfold RemoveSearchPath. rewrite set_same, filter_filter. apply filter_ext. intros x.
      destruct (String.eqb_spec x p) as [->|N]; cbn [negb andb orb].
      * unfold bad. rewrite B. reflexivity.
      * reflexivity.
    + apply filter_ext. intros x. destruct (String.eqb_spec x p) as [->|N]; [|reflexivity]. unfold bad. rewrite B. reflexivity.
Qed.
Lemma inner_spec every id f : inner every id (f id) f id = filter keep (f id).
Proof.
  destruct every.
  - rewrite inner_every. apply filter_ext_in. intros x I. unfold keep.
    replace (existsb (String.eqb x) (f id)) with true; [rewrite andb_true_r; reflexivity|].
    symmetry. apply existsb_exists. exists x. split; [exact I|apply String.eqb_refl].
  - apply (inner_first id (f id) f []); [intros x []|reflexivity].
Qed.

Lemma filter_keep_idem l : filter keep (filter keep l) = filter keep l.
Proof. rewrite filter_filter. apply filter_ext. intros x. destruct (keep x); reflexivity. Qed.

Lemma outer_spec every ids : forall f x,
  outer every ids f x = if existsb (String.eqb x) ids then filter keep (f x) else f x.
Proof.
  unfold outer. induction ids as [|id ids IH]; intros f x; cbn [fold_left existsb]; [reflexivity|].
  rewrite IH. destruct (String.eqb_spec x id) as [->|N]; cbn [orb].
  - rewrite inner_spec. destruct (existsb (String.eqb id) ids); [apply filter_keep_idem|reflexivity].
  - rewrite inner_other by exact N. reflexivity.
Qed.

Lemma without_filter l : without (mentions "metamod") l (filter keep l).
Proof.
  induction l as [|x l IH]; cbn [filter]; [constructor|]. unfold keep at 1. unfold bad. destruct (strstr x "metamod") eqn:B; cbn [negb].
  - apply w_drop; [apply strstr_spec; exact B|exact IH].
  - apply w_keep; [apply strstr_false; exact B|exact IH].
Qed.
Lemma without_fun P l a : without P l a -> forall b, without P l b -> a = b.
Proof.
  induction 1 as [|x l l' Px W IH|x l l' Px W IH]; intros b V; inversion V; subst; try contradiction; auto.
  f_equal. auto.
Qed.
Lemma append_assoc' : forall a b c : string, (a ++ b) ++ c = a ++ (b ++ c).
Proof. induction a as [|x a IH]; intros b c; cbn [append]; [reflexivity|]. rewrite IH. reflexivity. Qed.
