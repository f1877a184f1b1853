(** List facts used by the container proofs. *)
From Coq Require Import List Arith Lia.
Import ListNotations.

Lemma nodup_app_iff {A} (l r : list A) :
  NoDup (l ++ r) <-> NoDup l /\ NoDup r /\ (forall x, In x l -> ~ In x r).
Proof.
  induction l as [|a l IH]; cbn [app].
  - split; [intros H; repeat split; auto; constructor|tauto].
  - rewrite !NoDup_cons_iff, IH, in_app_iff. split.
    + intros (H1 & H2 & H3 & H4). repeat split; auto. intros x [->|I]; auto.
    + intros ((H1 & H2) & H3 & H4). repeat split; auto.
      * intros [I|I]; [auto|]. apply (H4 a); cbn; auto.
      * intros x I. apply H4. cbn; auto.
Qed.

Lemma nodup_app_l {A} (l r : list A) : NoDup (l ++ r) -> NoDup l.
Proof. intros H. apply nodup_app_iff in H. tauto. Qed.
Lemma nodup_app_r {A} (l r : list A) : NoDup (l ++ r) -> NoDup r.
Proof. intros H. apply nodup_app_iff in H. tauto. Qed.
Lemma nodup_app_disj {A} (l r : list A) x : NoDup (l ++ r) -> In x l -> In x r -> False.
Proof. intros H. apply nodup_app_iff in H. intros I J. apply (proj2 (proj2 H) x); auto. Qed.

Lemma last_in {A} (l : list A) d : In (last l d) (d :: l).
Proof.
  destruct l as [|c r] using rev_ind; [left; reflexivity|].
  rewrite last_last. right. apply in_or_app. cbn; auto.
Qed.
