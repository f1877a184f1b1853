(** C72: what is logged appears, as one line, in the log and on the console. *)
From Coq Require Import List Bool Arith Ascii String Lia.
From Verif Require Import StrModel LogModel LogSpec LogProofs.
Import ListNotations.
Local Open Scope nat_scope.
Notation length := List.length.

(** metamod.cpp 444: static char buffer[2048] *)
Definition SIZE : nat := 2048.
Definition hello : str := list_ascii_of_string "hello".
Definition world : str := list_ascii_of_string "world".

Lemma size_ok : 3 <= SIZE.
Proof. unfold SIZE. lia. Qed.

(** Messages of at most 2045 characters, logged by nobody who is called because of a message:
    each is one line in the log (or on stdout) and the same line on the console. *)
Theorem C72_lines_partial : forall engine l,
  (forall t, In t l -> no_nesting t /\ c_text (text_of t) /\ length (text_of t) <= 2045) ->
  exists s, log_all SIZE engine (map as_msg l) = Some (intended engine l, s).
Proof.
  intros engine l H.
  destruct (each_exact0 SIZE engine l) with (s := start SIZE) as [s E].
  - apply Forall_forall. intros t I. apply log_exact; [exact size_ok|]. destruct (H t I) as (N & C & _).
    destruct t as [x pre mid]. destruct N as [-> ->]. split; [exact C|split; exact Logic.I].
  - reflexivity.
  - apply repeat_length.
  - exists s. unfold log_all. rewrite E. f_equal. f_equal. clear E.
    induction l as [|t l IH]; [reflexivity|]. cbn [flat_map].
    destruct (H t (or_introl eq_refl)) as (N & C & L).
    rewrite (written_plain SIZE engine t N) by (unfold SIZE; lia).
    rewrite IH by (intros u I; apply H; right; exact I).
    unfold intended. cbn [flat_map]. rewrite app_nil_r. reflexivity.
Qed.
Print Assumptions C72_lines_partial.
Example C72_lines_partial_ex :
  (forall t, In t [Node hello [] []; Node world [] []] -> no_nesting t /\ c_text (text_of t) /\ length (text_of t) <= 2045) /\
  intended true [Node hello [] []; Node world [] []] =
  [Logged (hello ++ [NEWLINE]); Printed (hello ++ [NEWLINE]); Logged (world ++ [NEWLINE]); Printed (world ++ [NEWLINE])].
Proof.
  split; [|reflexivity].
  intros t [<-|[<-|[]]]; (split; [split; reflexivity|split; [|apply Nat.leb_le; reflexivity]]);
    intros I; vm_compute in I; repeat (destruct I as [I|I]; [discriminate I|]); exact I.
Qed.

(** All messages, of any length and nesting: exactly what is written. *)
Theorem C72_exact : forall engine l, (forall t, In t l -> all_texts c_text t) ->
  exists s, log_all SIZE engine (map as_msg l) = Some (flat_map (written SIZE engine) l, s).
Proof.
  intros engine l H. apply (each_exact0 SIZE engine l).
  - apply Forall_forall. intros t I. apply log_exact; [exact size_ok|]. apply H. exact I.
  - reflexivity.
  - apply repeat_length.
Qed.
Print Assumptions C72_exact.
Example C72_exact_ex :
  (forall t, In t [Node hello [Node world [] []] []] -> all_texts c_text t) /\
  flat_map (written SIZE true) [Node hello [Node world [] []] []] =
  [Logged (world ++ [NEWLINE]); Printed (world ++ [NEWLINE]); Logged (world ++ [NEWLINE]); Printed (world ++ [NEWLINE])].
Proof.
  split; [|vm_compute; reflexivity].
  intros t [<-|[]]. cbn [all_texts fold_right].
  repeat split; intros I; vm_compute in I; repeat (destruct I as [I|I]; [discriminate I|]); exact I.
Qed.

(** No message, whatever becomes of its formatting, makes an access outside the buffer, and no string
    that is written is longer than the buffer. *)
Theorem C72_bounds : forall engine l, Forall (all_results (possible SIZE)) l ->
  exists o s, log_all SIZE engine l = Some (o, s) /\ length (buffer s) = SIZE /\
              Forall (fun e => length (string_of e) < SIZE) o.
Proof.
  intros engine l F. assert (G : good SIZE (start SIZE)).
  { split; [reflexivity|]. split; [apply repeat_length|]. exists []. reflexivity. }
  assert (S : safe SIZE (log_all SIZE engine l)).
  { apply each_safe; [|exact G]. eapply Forall_impl; [|exact F]. cbn beta.
    intros m A s (g & b & _). apply log_safe; [exact size_ok|exact A|exact g|exact b]. }
  destruct (log_all SIZE engine l) as [[o s]|]; [|destruct S]. destruct S as [(_ & L & _) O]. eauto 6.
Qed.
Print Assumptions C72_bounds.
Example C72_bounds_ex : Forall (all_results (possible SIZE)) [Msg (FormatError (repeat NEWLINE SIZE)) [] [Msg (Formatted hello) [] []]].
Proof.
  constructor; [|constructor]. cbn [all_results fold_right possible].
  repeat split; try apply repeat_length; intros I; vm_compute in I; repeat (destruct I as [I|I]; [discriminate I|]); exact I.
Qed.

(** A longer text loses its newline with its end: every text of more than 2045 characters. *)
Theorem C72_newline_refuted : forall x, c_text x -> 2045 < length x ->
  exists s, log_all SIZE true (map as_msg [Node x [] []]) = Some ([Logged (firstn 2045 x); Printed (firstn 2045 x)], s).
Proof.
  intros x C L. destruct (C72_exact true [Node x [] []]) as [s E].
  - intros t [<-|[]]. split; [exact C|split; exact Logic.I].
  - exists s. rewrite E. cbn [flat_map written left_after fold_left app]. unfold line_of.
    replace (length x <=? SIZE - 3) with false by (symmetry; apply Nat.leb_gt; unfold SIZE; lia). reflexivity.
Qed.
Print Assumptions C72_newline_refuted.
Example C72_newline_refuted_ex : c_text (repeat NEWLINE 2046) /\ 2045 < length (repeat NEWLINE 2046).
Proof.
  split; [intros I; apply repeat_spec in I; discriminate I|].
  rewrite repeat_length. apply Nat.ltb_lt. reflexivity.
Qed.

(** The guard against nested messages does not work: they are not dropped, to any depth ... *)
Theorem C72_guard_refuted : forall x n, c_text x ->
  exists o s, log_all SIZE true (map as_msg [chain x n]) = Some (o, s) /\ length o = 2 * (n + 1).
Proof.
  intros x n C. destruct (C72_exact true [chain x n]) as [s E].
  - intros t [<-|[]]. apply chain_texts. exact C.
  - eexists. exists s. split; [exact E|]. cbn [flat_map]. rewrite app_nil_r. apply written_chain.
Qed.
Print Assumptions C72_guard_refuted.
Example C72_guard_refuted_ex : c_text world.
Proof. intros I. vm_compute in I. repeat (destruct I as [I|I]; [discriminate I|]). exact I. Qed.

(** ... and take the place of the message that caused them, which is never written. *)
Theorem C72_lost_refuted : forall x y, c_text x -> c_text y -> length y <= 2045 ->
  exists s, log_all SIZE true (map as_msg [Node x [Node y [] []] []]) =
  Some ([Logged (y ++ [NEWLINE]); Printed (y ++ [NEWLINE]); Logged (y ++ [NEWLINE]); Printed (y ++ [NEWLINE])], s).
Proof.
  intros x y X Y L. destruct (C72_exact true [Node x [Node y [] []] []]) as [s E].
  - intros t [<-|[]]. cbn [all_texts fold_right]. tauto.
  - exists s. rewrite E. cbn [flat_map written left_after left_by fold_left app]. unfold line_of.
    replace (length y <=? SIZE - 3) with true by (symmetry; apply Nat.leb_le; unfold SIZE; lia). reflexivity.
Qed.
Print Assumptions C72_lost_refuted.
Example C72_lost_refuted_ex : c_text hello /\ c_text world /\ length world <= 2045.
Proof.
  repeat split; try (apply Nat.leb_le; reflexivity);
    intros I; vm_compute in I; repeat (destruct I as [I|I]; [discriminate I|]); exact I.
Qed.

(** If formatting fails the buffer is written as it is: here the message before, a second time. *)
Theorem C72_error_refuted : exists g s, length g = SIZE /\
  log_all SIZE true [Msg (Formatted hello) [] []; Msg (FormatError g) [] []] =
  Some ([Logged (hello ++ [NEWLINE]); Printed (hello ++ [NEWLINE]); Logged (hello ++ [NEWLINE]); Printed (hello ++ [NEWLINE])], s).
Proof.
  exists (hello ++ NEWLINE :: repeat NUL (SIZE - 6)). eexists. split.
  - rewrite app_length. cbn [length]. rewrite repeat_length. reflexivity.
  - vm_compute. reflexivity.
Qed.
Print Assumptions C72_error_refuted.
