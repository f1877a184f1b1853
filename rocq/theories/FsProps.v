(** C77: the search paths after the start of the Source 2 provider. *)
From Coq Require Import List Bool String Ascii Lia.
From Verif Require Import FsModel FsSpec FsProofs.
Import ListNotations.
Local Open Scope string_scope.

Lemma affected_ids : forall id, affected id <-> In id pathIds.
Proof. intros id. unfold affected, pathIds. cbn [In]. tauto. Qed.

(** Of the thirteen lists exactly the directories whose names contain "metamod" are taken out; the others keep
    their order; every other list stays as it is, but for DEFAULT_WRITE_PATH. *)
Theorem C77_paths : forall every f id,
  (affected id -> without (mentions "metamod") (f id) (fix_paths every f id)) /\
  (~ affected id -> id <> "DEFAULT_WRITE_PATH" -> fix_paths every f id = f id).
Proof.
  intros every f id. rewrite affected_ids. unfold fix_paths, AddSearchPath, RemoveSearchPaths. split.
  - intros I. assert (N : id <> "DEFAULT_WRITE_PATH").
    { intros ->. cbn in I. intuition discriminate. }
    rewrite !set_other by exact N. rewrite outer_spec.
    replace (existsb (String.eqb id) pathIds) with true; [apply without_filter|].
    symmetry. apply existsb_exists. exists id. split; [exact I|apply String.eqb_refl].
  - intros I N. rewrite !set_other by exact N. rewrite outer_spec.
    destruct (existsb (String.eqb id) pathIds) eqn:E; [|reflexivity].
    apply existsb_exists in E. destruct E as (x & X & Q). apply String.eqb_eq in Q. subst x. contradiction.
Qed.
Print Assumptions C77_paths.

(** The engine writes to the first game directory that is left, and nowhere else. *)
Theorem C77_write : forall every f, exists g, without (mentions "metamod") (f "GAME") g /\
  fix_paths every f "DEFAULT_WRITE_PATH" = [hd "" g] /\ ~ mentions "metamod" (hd "" g).
Proof.
  intros every f. exists (filter keep (f "GAME")). split; [apply without_filter|].
  unfold fix_paths, AddSearchPath, RemoveSearchPaths, GetSearchPath. rewrite !set_same, set_other by discriminate.
  rewrite outer_spec. cbn [existsb pathIds String.eqb Ascii.eqb Bool.eqb orb]. cbn [app].
  destruct (filter keep (f "GAME")) as [|g l] eqn:E; cbn [hd].
  - split; [reflexivity|]. apply strstr_false. reflexivity.
  - split; [reflexivity|]. apply strstr_false. assert (I : In g (filter keep (f "GAME"))) by (rewrite E; left; reflexivity).
    apply filter_In in I. destruct I as [_ I]. unfold keep, bad in I. destruct (strstr g "metamod"); [discriminate I|reflexivity].
Qed.
Print Assumptions C77_write.

Definition cs : fs := fun id =>
  if String.eqb id "GAME" then ["/srv/csgo/addons/metamod"; "/srv/csgo"; "/srv/core"]
  else if String.eqb id "DEFAULT_WRITE_PATH" then ["/srv/csgo/addons/metamod"] else [].
Example C77_cs : forall every, fix_paths every cs "GAME" = ["/srv/csgo"; "/srv/core"] /\ fix_paths every cs "DEFAULT_WRITE_PATH" = ["/srv/csgo"].
Proof. intros [|]; split; reflexivity. Qed.

(** Doing it twice changes nothing more. *)
Theorem C77_twice : forall every f id, fix_paths every (fix_paths every f) id = fix_paths every f id.
Proof.
  intros every f id. destruct (String.eqb_spec id "DEFAULT_WRITE_PATH") as [->|N].
  - destruct (C77_write every f) as (g & G & E & _). destruct (C77_write every (fix_paths every f)) as (h & H & E' & _).
    rewrite E, E'. do 2 f_equal. pose proof (proj1 (C77_paths every f "GAME")) as P.
    assert (I : affected "GAME") by (cbn; tauto). specialize (P I).
    assert (Q : fix_paths every f "GAME" = g) by (eapply without_fun; eassumption).
    rewrite Q in H. eapply without_fun; [exact H|]. clear - G.
    assert (T : g = filter keep (f "GAME")) by (eapply without_fun; [exact G|apply without_filter]).
    subst g. rewrite <- (filter_keep_idem (f "GAME")) at 2. apply without_filter.
  - destruct (in_dec string_dec id pathIds) as [I|I]; rewrite <- affected_ids in I.
    + pose proof (proj1 (C77_paths every f id) I) as A. pose proof (proj1 (C77_paths every (fix_paths every f) id) I) as B.
      assert (T : fix_paths every f id = filter keep (f id)) by (eapply without_fun; [exact A|apply without_filter]).
      rewrite T in B |- *. eapply without_fun; [exact B|]. rewrite <- (filter_keep_idem (f id)) at 2. apply without_filter.
    + apply (proj2 (C77_paths every (fix_paths every f) id) I N).
Qed.
Print Assumptions C77_twice.

(** Refuted: "only Metamod's own directories are taken out": if the server is installed in a directory whose
    name contains "metamod", all of its directories are, and the place to write to is the empty name. *)
Theorem C77_parent_refuted : forall every f d, mentions "metamod" d ->
  (forall id p, affected id -> In p (f id) -> below d p) ->
  (forall id, affected id -> fix_paths every f id = []) /\ fix_paths every f "DEFAULT_WRITE_PATH" = [""].
Proof.
  intros every f d M B.
  assert (Z : forall id, affected id -> forall l, without (mentions "metamod") (f id) l -> l = []).
  { intros id I l W. assert (A : forall p, In p (f id) -> mentions "metamod" p).
    { intros p Ip. destruct (B id p I Ip) as (r & ->). destruct M as (a & b & ->). exists a, (b ++ "/" ++ r).
      rewrite !append_assoc'. reflexivity. }
    clear B. induction W as [|x k k' Px W IH|x k k' Px W IH].
    - reflexivity.
    - apply IH. intros p Ip. apply A. right. exact Ip.
    - exfalso. apply Px. apply A. left. reflexivity. }
  split.
  - intros id I. apply (Z id I). apply (C77_paths every f id). exact I.
  - destruct (C77_write every f) as (g & G & E & _). rewrite E, (Z "GAME" ltac:(cbn; tauto) g G). reflexivity.
Qed.
Print Assumptions C77_parent_refuted.
Definition my : fs := fun id => if String.eqb id "GAME" then ["/home/metamod-test/csgo/addons/metamod"; "/home/metamod-test/csgo"] else [].
Example C77_my : mentions "metamod" "/home/metamod-test" /\ (forall id p, affected id -> In p (my id) -> below "/home/metamod-test" p) /\
  fix_paths true my "GAME" = [].
Proof.
  split; [exists "/home/", "-test"; reflexivity|]. split; [|reflexivity].
  intros id p _. unfold my. destruct (String.eqb id "GAME"); [|intros []].
  intros [<-|[<-|[]]]; [exists "csgo/addons/metamod"|exists "csgo"]; reflexivity.
Qed.
