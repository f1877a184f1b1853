(** C37: relative paths. *)
From Coq Require Import List Bool Arith Ascii String Lia.
From Verif Require Import Base StrModel RelModel RelSpec RelProofs.
Import ListNotations.
Local Open Scope char_scope.
Local Open Scope nat_scope.
Local Open Scope list_scope.
Notation length := List.length.
Notation concat := List.concat.

Lemma normal_absolute s : normal s -> absolute s.
Proof.
  intros (l & z & E & _). destruct s as [|c s]; [exfalso; cbn in E; destruct l; discriminate|]. cbn [fields] in E. destruct (ascii_dec c "/") as [->|N]; [eexists; reflexivity|].
  destruct (fields s); discriminate.
Qed.
Lemma relatize2_eq maxlen p1 p2 : absolute p1 -> absolute p2 ->
  exists r1 r2, skip_same (names p1) (names p2) = (r1, r2) /\ relatize2 maxlen p1 p2 = Some (Some (firstn (maxlen - 1) (new_path r1 r2 p2))).
Proof.
  intros A1 A2. unfold relatize2. rewrite (split_path_spec _ A1), (split_path_spec _ A2). destruct (skip_same (names p1) (names p2)) as [r1 r2]. exists r1, r2.
  split; [reflexivity|]. unfold str_eqb. destruct (list_eq_dec ascii_dec [SEP] [SEP]); [reflexivity|contradiction].
Qed.

(** sizes *)
Definition total (l : list str) : nat := fold_right (fun f n => length f + 1 + n) 0 l.
Lemma total_fields s : total (fields s) = length s + 1.
Proof.
  induction s as [|c s IH]; [reflexivity|]. cbn [fields]. destruct (ascii_dec c "/") as [X|X].
  - change (total ([] :: fields s)) with (1 + total (fields s)). rewrite IH. cbn [List.length]. lia.
  - destruct (fields s) as [|f fs]; [cbn in IH; lia|]. unfold total in *; cbn [fold_right List.length] in *. lia.
Qed.
Lemma total_filter p l : total (filter p l) <= total l.
Proof. induction l as [|f l IH]; [reflexivity|]. unfold total in *; cbn [filter fold_right]. destruct (p f); cbn [fold_right]; lia. Qed.
Lemma total_app a b : total (a ++ b) = total a + total b.
Proof. induction a as [|f a IH]; [reflexivity|]. unfold total in *; cbn [app fold_right]. lia. Qed.
Lemma join_len l : length (join_parts l) <= total l.
Proof.
  induction l as [|f l IH]; [cbn; lia|]. cbn [join_parts]. destruct l as [|g l]; [unfold total; cbn [fold_right]; lia|]. rewrite !app_length.
  change (total (f :: g :: l)) with (length f + 1 + total (g :: l)). cbn [List.length] in *. lia.
Qed.
Lemma names_len l : length l <= total l.
Proof. induction l as [|f l IH]; [cbn; lia|]. unfold total in *; cbn [fold_right List.length]. lia. Qed.

(** The result, appended to the first path, denotes the second path: for all normalized
    first and absolute second paths (the second may contain anything), whatever PathExists
    answers, if the buffer is large enough. *)
Theorem C37_relatize (ex : str -> bool) (maxlen : nat) (p1 p2 : str) : normal p1 -> absolute p2 -> 3 * length p1 + length p2 + 10 <= maxlen ->
  exists out, relatize ex maxlen p1 p2 = Some (Some out) /\ denote (p1 ++ "/" :: out) = denote p2.
Proof.
  intros N A2 L. assert (A1 := normal_absolute _ N). unfold relatize.
  assert (R2 : exists out, relatize2 maxlen p1 p2 = Some (Some out) /\ denote (p1 ++ "/" :: out) = denote p2).
  { destruct (relatize2_eq maxlen p1 p2 A1 A2) as (r1 & r2 & E1 & E2). exists (new_path r1 r2 p2). rewrite E2. split; [|exact (new_path_ok _ _ _ _ N E1)].
    do 2 f_equal. apply firstn_all2. destruct (skip_same_spec _ _ _ _ E1) as (c & C1 & C2).
    pose proof (total_fields p1) as T1. pose proof (total_fields p2) as T2. pose proof (total_filter nonempty (fields p1)) as T3. pose proof (total_filter nonempty (fields p2)) as T4.
    change (filter nonempty (fields p1)) with (names p1) in T3. change (filter nonempty (fields p2)) with (names p2) in T4.
    rewrite C1, total_app in T3. rewrite C2, total_app in T4. pose proof (join_len r2). pose proof (names_len r1).
    unfold new_path. rewrite !app_length, flat_ups.
    assert (LU : forall n, length (concat (repeat ["."; "."; "/"] n)) = 3 * n) by (induction n as [|n IH]; [reflexivity|]; cbn [repeat List.concat]; rewrite app_length, IH; cbn [List.length]; lia).
    rewrite LU. destruct (ends_sep p2); cbn [List.length]; lia. }
  destruct (bad_relatize maxlen p1 p2) as [out|] eqn:B; [|exact R2]. destruct (ex out); [|exact R2].
  exists out; split; [reflexivity|]. exact (bad_relatize_ok _ _ _ _ N B).
Qed.
Print Assumptions C37_relatize.

(** For every buffer size: a result which does not fill the buffer is right. *)
Theorem C37_any_buffer (ex : str -> bool) (maxlen : nat) (p1 p2 out : str) : normal p1 -> absolute p2 ->
  relatize ex maxlen p1 p2 = Some (Some out) -> length out + 1 < maxlen -> denote (p1 ++ "/" :: out) = denote p2.
Proof.
  intros N A2 E L. assert (A1 := normal_absolute _ N). unfold relatize in E.
  assert (R2 : relatize2 maxlen p1 p2 = Some (Some out) -> denote (p1 ++ "/" :: out) = denote p2).
  { destruct (relatize2_eq maxlen p1 p2 A1 A2) as (r1 & r2 & E1 & E2). rewrite E2. intro X; injection X as X.
    assert (Y : length (firstn (maxlen - 1) (new_path r1 r2 p2)) = Nat.min (maxlen - 1) (length (new_path r1 r2 p2))) by apply firstn_length.
    rewrite X in Y. rewrite firstn_all2 in X by lia. rewrite <- X. exact (new_path_ok _ _ _ _ N E1). }
  destruct (bad_relatize maxlen p1 p2) as [o|] eqn:B; [|exact (R2 E)]. destruct (ex o); [|exact (R2 E)].
  injection E as <-. exact (bad_relatize_ok _ _ _ _ N B).
Qed.
Print Assumptions C37_any_buffer.

(** The result is a relative path, if the second path is normalized and has no slash at its end. *)
Theorem C37_relative (ex : str -> bool) (maxlen : nat) (p1 p2 out : str) : normal p1 -> normal p2 -> ends_sep p2 = false ->
  relatize ex maxlen p1 p2 = Some (Some out) -> ~ absolute out.
Proof.
  intros N N2 S E (t & X). assert (A1 := normal_absolute _ N). assert (A2 := normal_absolute _ N2). unfold relatize in E.
  assert (R2 : relatize2 maxlen p1 p2 = Some (Some out) -> False).
  { destruct (relatize2_eq maxlen p1 p2 A1 A2) as (r1 & r2 & E1 & E2). rewrite E2. intro Y; injection Y as Y.
    unfold new_path in Y. rewrite S, app_nil_r, X in Y. destruct (maxlen - 1) as [|k]; [discriminate Y|].
    destruct r1 as [|a r1]; [|cbn in Y; discriminate Y]. cbn [flat_map app] in Y. destruct (skip_same_spec _ _ _ _ E1) as (c & _ & C2).
    destruct r2 as [|f r2]; [discriminate Y|].
    assert (P : proper f) by (apply (proj1 (Forall_forall _ _) (normal_names _ N2)); rewrite C2; apply in_or_app; right; left; reflexivity).
    assert (NS : ~ In "/" f).
    { assert (J : In f (names p2)) by (rewrite C2; apply in_or_app; right; left; reflexivity). unfold names in J. apply filter_In in J.
      exact (proj1 (Forall_forall _ _) (fields_no_sep p2) f (proj1 J)). }
    destruct f as [|d f]; [destruct P; contradiction|]. cbn [join_parts] in Y. apply NS. left.
    destruct r2; cbn [app firstn] in Y; injection Y as Y; exact Y. }
  destruct (bad_relatize maxlen p1 p2) as [o|] eqn:B; [|exact (R2 E)]. destruct (ex o); [|exact (R2 E)]. injection E as ->. clear R2.
  unfold bad_relatize in B. destruct (negb (isabsolute p1) || negb (isabsolute p2)); [discriminate|].
  destruct (common_root p1 p2 None) as [[a b]|] eqn:R; [|discriminate].
  destruct (common_root_spec p1 p2 [] None a b) as (p & a' & b' & P1 & P2 & -> & ->); [discriminate|exact R|]. cbn [app] in P1, P2. cbn [tl] in B.
  destruct (write_ups _ [] maxlen) as [text|] eqn:WU; [|discriminate]. apply write_ups_spec in WU. cbn [app] in WU.
  destruct (length b' <? maxlen - length text); [|discriminate]. injection B as B. subst text. rewrite X in B.
  set (n := match a' with [] => 0 | _ => count_levels ("/" :: a') end) in *. destruct n as [|n]; [|cbn in B; discriminate B]. cbn [repeat List.concat app] in B.
  destruct N2 as (l & z & F & FP & Z). rewrite P2, B, fields_app, fields_sep in F.
  destruct (fields p) as [|f fs] eqn:EF; [exact (fields_nonnil _ EF)|]. cbn [app] in F. injection F as -> F.
  destruct (suffix_normal fs ([] :: fields t) l z F FP Z ltac:(discriminate)) as (l' & Q & QF). destruct l' as [|g l'].
  - destruct (fields t) eqn:ET; [exact (fields_nonnil _ ET)|discriminate Q].
  - injection Q as Q _. inversion QF as [|? ? (K & _) _]. apply K; symmetry; exact Q.
Qed.
Print Assumptions C37_relative.

Definition s_ (x : string) : str := list_ascii_of_string x.
Example ex_normal : normal (s_ "/srv/cs/bin") /\ normal (s_ "/") /\ absolute (s_ "/srv/cs//addons/../x").
Proof.
  assert (P : forall f : str, f <> [] -> f <> ["."] -> f <> ["."; "."] -> proper f) by (intros; split; auto).
  split; [|split; [|exists (s_ "srv/cs//addons/../x"); reflexivity]].
  - exists [s_ "srv"; s_ "cs"], (s_ "bin"). split; [reflexivity|split; [repeat constructor; discriminate|left; apply P; discriminate]].
  - exists [], []. split; [reflexivity|split; [constructor|right; reflexivity]].
Qed.
Example ex_relatize : relatize (fun _ => true) 100 (s_ "/srv/cs/bin") (s_ "/srv/cs/addons/mm") = Some (Some (s_ "../addons/mm")) /\
  relatize (fun _ => false) 100 (s_ "/srv/cs/bin") (s_ "/srv/cs/addons/mm") = Some (Some (s_ "../addons/mm")) /\
  relatize (fun _ => true) 100 (s_ "/srv/cs") (s_ "/srv/cs/mm") = Some (Some (s_ "../cs/mm")).
Proof. repeat split; reflexivity. Qed.

(** A path from the root and one that is not have nothing in common: the answer is false. *)
Theorem C37_no_common (ex : str -> bool) (maxlen : nat) (p1 p2 : str) :
  (absolute p1 /\ p2 <> [] /\ ~ absolute p2) \/ (absolute p2 /\ p1 <> [] /\ ~ absolute p1) ->
  relatize ex maxlen p1 p2 = Some None.
Proof.
  assert (R : forall s, s <> [] -> ~ absolute s -> isabsolute s = false /\
    exists f l, split_path s = Some (f :: l) /\ f <> [SEP]).
  { intros s N A. destruct s as [|c s]; [contradiction|]. cbn [isabsolute split_path].
    destruct (sepb_spec c) as [C|C]; [exfalso; apply A; exists s; subst c; reflexivity|].
    split; [reflexivity|]. rewrite split_loop_spec; [|lia|right; exists c, s; auto].
    unfold names. cbn [fields]. destruct (ascii_dec c "/") as [X|X]; [contradiction|].
    destruct (fields s) as [|f fs]; cbn [filter nonempty]; eexists; eexists; (split; [reflexivity|]); unfold SEP; congruence. }
  assert (B : forall a b, isabsolute a = false \/ isabsolute b = false -> bad_relatize maxlen a b = None).
  { intros a b H. unfold bad_relatize. destruct H as [-> | ->]; cbn [negb orb]; [reflexivity|].
    rewrite orb_true_r. reflexivity. }
  intros [(A & N & M)|(A & N & M)]; destruct (R _ N M) as (I & f & l & E & D); unfold relatize;
    rewrite B by auto; unfold relatize2; rewrite E, (split_path_spec _ A); unfold str_eqb;
    match goal with |- context [list_eq_dec ?d ?x ?y] => destruct (list_eq_dec d x y) as [Q|Q] end; try reflexivity; exfalso; congruence.
Qed.
Print Assumptions C37_no_common.
Example C37_no_common_example : relatize (fun _ => true) 100 (s_ "/a/b") (s_ "a/b/c") = Some None /\
  absolute (s_ "/a/b") /\ ~ absolute (s_ "a/b/c").
Proof. split; [reflexivity|]. split; [eexists; reflexivity|]. intros (t & E). discriminate E. Qed.

(** Finding: UTIL_Relatize2 reports success for a text which did not fit. *)
Theorem C37_truncated_refuted : exists p1 p2 out, normal p1 /\ normal p2 /\ relatize (fun _ => true) 8 p1 p2 = Some (Some out) /\
  denote (p1 ++ "/" :: out) <> denote p2.
Proof.
  assert (P : forall f : str, f <> [] -> f <> ["."] -> f <> ["."; "."] -> proper f) by (intros; split; auto).
  exists (s_ "/a"), (s_ "/bcdefgh"), (s_ "../bcde"). split; [|split; [|split; [reflexivity|discriminate]]].
  - exists [], (s_ "a"). split; [reflexivity|split; [constructor|left; apply P; discriminate]].
  - exists [], (s_ "bcdefgh"). split; [reflexivity|split; [constructor|left; apply P; discriminate]].
Qed.
Print Assumptions C37_truncated_refuted.

(** Finding: for the directory itself written with a slash at the end, the "relative" path is "/", the root. *)
Theorem C37_same_directory_refuted : exists ex p1 p2 out, normal p1 /\ normal p2 /\ denote p1 = denote p2 /\
  relatize ex 100 p1 p2 = Some (Some out) /\ out = s_ "/".
Proof.
  assert (P : forall f : str, f <> [] -> f <> ["."] -> f <> ["."; "."] -> proper f) by (intros; split; auto).
  exists (fun _ => false), (s_ "/a"), (s_ "/a/"), (s_ "/"). split; [|split; [|repeat split]].
  - exists [], (s_ "a"). split; [reflexivity|split; [constructor|left; apply P; discriminate]].
  - exists [s_ "a"], []. split; [reflexivity|split; [repeat constructor; discriminate|right; reflexivity]].
Qed.
Print Assumptions C37_same_directory_refuted.

(** Finding: repeated slashes in the first path (not normalized) make UTIL_BadRelatize go up too far. *)
Theorem C37_double_slash_refuted : exists p1 p2 out, absolute p1 /\ absolute p2 /\
  relatize (fun _ => true) 100 p1 p2 = Some (Some out) /\ denote (p1 ++ "/" :: out) <> denote p2.
Proof.
  exists (s_ "/a//b"), (s_ "/a/b"), (s_ "../../b"). split; [eexists; reflexivity|split; [eexists; reflexivity|split; [reflexivity|discriminate]]].
Qed.
Print Assumptions C37_double_slash_refuted.
