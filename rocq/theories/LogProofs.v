(** Proofs about mm_LogMessage. *)
From Coq Require Import List Bool Arith Ascii Lia.
From Verif Require Import StrModel StrSpec StrProofs LogModel LogSpec.
Import ListNotations.
Local Open Scope nat_scope.
Notation length := List.length.

Lemma NEWLINE_NUL : NEWLINE <> NUL.
Proof. discriminate. Qed.

Section Size.
Variable size : nat.
Hypothesis size3 : 3 <= size.

(** ** One text *)
Lemma poke_split : forall (b : buf) (i : nat) c b', poke b i c = Some b' ->
  b' = firstn i b ++ c :: skipn (S i) b /\ i < length b.
Proof.
  induction b as [|x b IH]; intros i c b' H; [destruct i; discriminate H|].
  destruct i as [|i]; cbn [poke] in H.
  - injection H as <-. cbn. split; [reflexivity|lia].
  - destruct (poke b i c) as [r|] eqn:E; [|discriminate H]. injection H as <-.
    destruct (IH i c r E) as [-> L]. cbn. split; [reflexivity|lia].
Qed.

Lemma firstn_snoc_le (x : str) n : n <= length x -> length (firstn n x) = n.
Proof. intros L. rewrite firstn_length. lia. Qed.

Lemma not_in_firstn (x : str) n : ~ In NUL x -> ~ In NUL (firstn n x).
Proof. intros N I. apply N. rewrite <- (firstn_skipn n x). apply in_or_app. left. exact I. Qed.

Lemma fill_text b x : length b = size -> c_text x ->
  exists b', fill size b (Formatted x) = Some b' /\ length b' = size /\ cstr b' = Some (line_of size x).
Proof.
  intros L C. unfold fill, vsnprintf.
  assert (LF : length (firstn (size - 2 - 1) x) = Nat.min (size - 2 - 1) (length x)) by apply firstn_length.
  unfold store_str. rewrite LF.
  replace (Nat.min (size - 2 - 1) (length x) + 1 <=? length b) with true by (symmetry; apply Nat.leb_le; lia).
  unfold line_of. destruct (length x <=? size - 3) eqn:E.
  - apply Nat.leb_le in E. rewrite (Nat.min_r (size - 2 - 1)) by lia. rewrite (Nat.min_l (length x)) by lia.
    rewrite (firstn_all2 x) by lia.
    destruct (skipn (length x + 1) b) as [|y tl] eqn:SK.
    { assert (length (skipn (length x + 1) b) = 0) by (rewrite SK; reflexivity). rewrite skipn_length in H. lia. }
    cbn [app]. rewrite (poke_app x NUL (y :: tl) NEWLINE).
    replace (x ++ NEWLINE :: y :: tl) with ((x ++ [NEWLINE]) ++ y :: tl) by (rewrite <- app_assoc; reflexivity).
    replace (length x + 1) with (length (x ++ [NEWLINE])) by (rewrite app_length; reflexivity).
    rewrite poke_app. eexists. split; [reflexivity|]. split.
    + rewrite !app_length. cbn [length].
      assert (length (skipn (length x + 1) b) = S (length tl)) by (rewrite SK; reflexivity).
      rewrite skipn_length in H. lia.
    + apply cstr_intro. intros I. apply in_app_or in I. destruct I as [I|[I|[]]].
      * exact (C I).
      * exact (NEWLINE_NUL I).
  - apply Nat.leb_gt in E. rewrite (Nat.min_l (size - 2 - 1)) by lia. rewrite (Nat.min_r (length x)) by lia.
    replace (size - 2 - 1) with (size - 3) by lia.
    replace (size - 3 + 1) with (size - 2) by lia.
    set (f := firstn (size - 3) x).
    assert (Lf : length f = size - 3) by (apply firstn_length_le; lia).
    assert (NF : ~ In NUL f) by (apply not_in_firstn; exact C).
    assert (LS : length (skipn (size - 2) b) = 2) by (rewrite skipn_length; lia).
    destruct (skipn (size - 2) b) as [|y [|z [|w tl]]]; try discriminate LS.
    replace (f ++ [NUL] ++ [y; z]) with ((f ++ [NUL]) ++ y :: [z]) by (rewrite <- app_assoc; reflexivity).
    assert (P1 : poke ((f ++ [NUL]) ++ [y; z]) (size - 2) NEWLINE = Some ((f ++ [NUL]) ++ NEWLINE :: [z])).
    { replace (size - 2) with (length (f ++ [NUL])) by (rewrite app_length, Lf; cbn; lia). apply poke_app. }
    rewrite P1.
    replace ((f ++ [NUL]) ++ NEWLINE :: [z]) with ((f ++ [NUL; NEWLINE]) ++ z :: []) by (rewrite <- !app_assoc; reflexivity).
    replace (size - 2 + 1) with (length (f ++ [NUL; NEWLINE])) by (rewrite app_length, Lf; cbn; lia).
    rewrite poke_app. eexists. split; [reflexivity|]. split.
    + rewrite !app_length, Lf. cbn [length]. lia.
    + rewrite <- app_assoc. cbn [app]. apply cstr_intro. exact NF.
Qed.

Lemma cstr_exists : forall b a c d, b = a ++ c :: d -> c = NUL -> exists s, cstr b = Some s.
Proof.
  intros b a c d -> ->. induction a as [|x a [s IH]].
  - exists []. reflexivity.
  - cbn [app cstr]. destruct (Ascii.eqb x NUL); [eexists; reflexivity|].
    rewrite IH. eexists. reflexivity.
Qed.

Lemma fill_any b r : length b = size -> possible size r ->
  exists b' s, fill size b r = Some b' /\ length b' = size /\ cstr b' = Some s.
Proof.
  intros L P. destruct r as [x|g].
  - destruct (fill_text b x L P) as (b' & F & L' & C). eauto 6.
  - cbn in P. unfold fill, vsnprintf.
    destruct (poke_some g (size - 2) NEWLINE ltac:(lia)) as [b1 E1]. rewrite E1.
    pose proof (poke_length _ _ _ _ E1) as L1.
    destruct (poke_some b1 (size - 2 + 1) NUL ltac:(lia)) as [b2 E2]. rewrite E2.
    pose proof (poke_length _ _ _ _ E2) as L2.
    destruct (poke_split _ _ _ _ E2) as [S2 _].
    destruct (cstr_exists b2 _ NUL _ S2 eq_refl) as [s C].
    exists b2, s. split; [reflexivity|]. split; [lia|exact C].
Qed.

(** ** Induction over messages *)
Lemma msg_induction (P : msg -> Prop) :
  (forall r pre mid, Forall P pre -> Forall P mid -> P (Msg r pre mid)) -> forall m, P m.
Proof.
  intros H. fix IH 1. intros [r pre mid]. apply H.
  - induction pre as [|a l IHl]; constructor; [apply IH|exact IHl].
  - induction mid as [|a l IHl]; constructor; [apply IH|exact IHl].
Qed.
Lemma tree_induction (P : tree -> Prop) :
  (forall x pre mid, Forall P pre -> Forall P mid -> P (Node x pre mid)) -> forall m, P m.
Proof.
  intros H. fix IH 1. intros [r pre mid]. apply H.
  - induction pre as [|a l IHl]; constructor; [apply IH|exact IHl].
  - induction mid as [|a l IHl]; constructor; [apply IH|exact IHl].
Qed.

Lemma fold_right_Forall (A : Type) (P : A -> Prop) l :
  fold_right (fun u p => P u /\ p) True l <-> Forall P l.
Proof.
  induction l as [|a l IH]; cbn; split; intros H.
  - constructor.
  - exact I.
  - destruct H. constructor; [assumption|]. apply IH. assumption.
  - inversion H; subst. split; [assumption|]. apply IH. assumption.
Qed.

(** ** Running a list *)
Lemma each_nil f s : each f [] s = Some ([], s).
Proof. reflexivity. Qed.

Lemma each_acc f l : forall o s,
  fold_left (fun acc m => match acc with
                          | None => None
                          | Some (o, s) => match f m s with
                                           | None => None
                                           | Some (o', s') => Some (o ++ o', s')
                                           end
                          end) l (Some (o, s)) =
  match each f l s with None => None | Some (o', s') => Some (o ++ o', s') end.
Proof.
  unfold each.
  assert (N : forall l : list msg, fold_left (fun acc m => match acc with
                          | None => None
                          | Some (o, s) => match f m s with
                                           | None => None
                                           | Some (o', s') => Some (o ++ o', s')
                                           end
                          end) l None = None :> option (list out * st)).
  { induction l0 as [|a l0 IH]; [reflexivity|exact IH]. }
  induction l as [|a l IH]; intros o s; cbn [fold_left].
  - rewrite app_nil_r. reflexivity.
  - destruct (f a s) as [[o1 s1]|]; [|rewrite N; reflexivity].
    rewrite (IH (o ++ o1)), (IH ([] ++ o1)).
    match goal with |- context[match ?x with _ => _ end] => destruct x as [[o2 s2]|] end; [|reflexivity].
    cbn [app]. rewrite app_assoc. reflexivity.
Qed.

Lemma each_cons f m l s :
  each f (m :: l) s =
  match f m s with
  | None => None
  | Some (o, s) => match each f l s with None => None | Some (o', s') => Some (o ++ o', s') end
  end.
Proof.
  unfold each at 1. cbn [fold_left]. destruct (f m s) as [[o s1]|].
  - cbn [app]. apply each_acc.
  - induction l as [|a l IH]; [reflexivity|exact IH].
Qed.

(** ** Every message: nothing outside the array *)
Definition good (s : st) : Prop := guard s = false /\ length (buffer s) = size /\ exists t, cstr (buffer s) = Some t.
Definition safe (r : option (list out * st)) : Prop :=
  match r with
  | None => False
  | Some (o, s) => good s /\ Forall (fun e => length (string_of e) < size) o
  end.

Lemma each_safe f l : Forall (fun m => forall s, good s -> safe (f m s)) l ->
  forall s, good s -> safe (each f l s).
Proof.
  induction l as [|a l IH]; intros F s G.
  - rewrite each_nil. split; [exact G|constructor].
  - inversion F as [|? ? Fa Fl]; subst. rewrite each_cons. specialize (Fa s G).
    destruct (f a s) as [[o s1]|]; [|exact Fa]. destruct Fa as [G1 O1].
    specialize (IH Fl s1 G1). destruct (each f l s1) as [[o2 s2]|]; [|exact IH].
    destruct IH as [G2 O2]. split; [exact G2|]. apply Forall_app. auto.
Qed.

Lemma Forall_each engine l (P : msg -> Prop) :
  Forall (fun m => P m -> forall s, good s -> safe (mm_LogMessage size engine m s)) l ->
  Forall P l -> Forall (fun m => forall s, good s -> safe (mm_LogMessage size engine m s)) l.
Proof.
  intros F. induction F as [|m l Hm F IH]; intros Q; inversion Q; subst; constructor; auto.
Qed.

Lemma log_safe engine m : all_results (possible size) m ->
  forall s, guard s = false -> length (buffer s) = size -> safe (mm_LogMessage size engine m s).
Proof.
  intros A s G L. revert s G L. revert A. apply (msg_induction (fun m => all_results (possible size) m -> forall s, guard s = false -> length (buffer s) = size -> safe (mm_LogMessage size engine m s))).
  clear m. intros r pre mid Fp Fm A s G L.
  cbn [all_results] in A. destruct A as (R & Ap & Am).
  apply fold_right_Forall in Ap. apply fold_right_Forall in Am.
  assert (Sp : Forall (fun m => forall s, good s -> safe (mm_LogMessage size engine m s)) pre).
  { apply (Forall_each engine pre (all_results (possible size))); [|exact Ap].
    eapply Forall_impl; [|exact Fp]. cbn beta. intros m H Q s' (G1 & L1 & _). auto. }
  assert (Sm : Forall (fun m => forall s, good s -> safe (mm_LogMessage size engine m s)) mid).
  { apply (Forall_each engine mid (all_results (possible size))); [|exact Am].
    eapply Forall_impl; [|exact Fm]. cbn beta. intros m H Q s' (G1 & L1 & _). auto. }
  cbn [mm_LogMessage]. rewrite G. cbn [SaveAndSet_ctor SaveAndSet_dtor guard buffer].
  rewrite G.
  destruct (fill_any (buffer s) r L R) as (b & t & F & Lb & C). rewrite F.
  set (s0 := mk false b).
  assert (G0 : good s0) by (split; [reflexivity|split; [exact Lb|exists t; exact C]]).
  assert (K : forall o1 s1, good s1 -> Forall (fun e => length (string_of e) < size) o1 ->
    safe (match each (mm_LogMessage size engine) mid s1 with
          | None => None
          | Some (o2, s) => match cstr (buffer s) with
                            | None => None
                            | Some t => Some (o1 ++ o2 ++ [Printed t], s)
                            end
          end)).
  { intros o1 s1 G1 O1. pose proof (each_safe _ mid Sm s1 G1) as E.
    destruct (each (mm_LogMessage size engine) mid s1) as [[o2 s2]|]; [|exact E].
    destruct E as [G2 O2]. pose proof G2 as (g2 & l2 & u & C2). rewrite C2. split; [exact G2|].
    apply Forall_app. split; [exact O1|]. apply Forall_app. split; [exact O2|].
    constructor; [|constructor]. cbn. pose proof (cstr_length _ _ C2). lia. }
  destruct engine.
  - pose proof (each_safe _ pre Sp s0 G0) as E.
    destruct (each (mm_LogMessage size true) pre s0) as [[o1 s1]|]; [|exact E].
    destruct E as [G1 O1]. pose proof G1 as (g1 & l1 & u & C1). rewrite C1. apply K; [exact G1|].
    apply Forall_app. split; [exact O1|]. constructor; [|constructor].
    cbn. pose proof (cstr_length _ _ C1). lia.
  - cbn [buffer s0]. rewrite C. apply K; [exact G0|]. constructor; [|constructor].
    cbn. pose proof (cstr_length _ _ C). lia.
Qed.

(** ** Texts: exactly what is written *)
Definition holds (s : st) (x : str) : Prop :=
  guard s = false /\ length (buffer s) = size /\ cstr (buffer s) = Some (line_of size x).

Definition exact_at (engine : bool) (t : tree) : Prop :=
  forall s, guard s = false -> length (buffer s) = size ->
  exists s', mm_LogMessage size engine (as_msg t) s = Some (written size engine t, s') /\ holds s' (left_by engine t).

Lemma each_exact engine l : Forall (exact_at engine) l -> forall s x, holds s x ->
  exists s', each (mm_LogMessage size engine) (map as_msg l) s = Some (flat_map (written size engine) l, s') /\
             holds s' (left_after engine x l).
Proof.
  induction l as [|a l IH]; intros F s x H.
  - exists s. split; [reflexivity|exact H].
  - inversion F as [|? ? Fa Fl]; subst. cbn [map]. rewrite each_cons.
    destruct (Fa s (proj1 H) (proj1 (proj2 H))) as (s1 & E1 & H1). rewrite E1.
    destruct (IH Fl s1 _ H1) as (s2 & E2 & H2). rewrite E2. exists s2. split; [reflexivity|].
    unfold left_after in *. cbn [fold_left]. exact H2.
Qed.

Lemma each_exact0 engine l : Forall (exact_at engine) l -> forall s, guard s = false -> length (buffer s) = size ->
  exists s', each (mm_LogMessage size engine) (map as_msg l) s = Some (flat_map (written size engine) l, s').
Proof.
  destruct l as [|a l]; intros F s G L.
  - exists s. reflexivity.
  - inversion F as [|? ? Fa Fl]; subst. cbn [map]. rewrite each_cons.
    destruct (Fa s G L) as (s1 & E1 & H1). rewrite E1.
    destruct (each_exact engine l Fl s1 _ H1) as (s2 & E2 & H2). rewrite E2. exists s2. reflexivity.
Qed.

Lemma log_exact engine t : all_texts c_text t -> exact_at engine t.
Proof.
  apply (tree_induction (fun t => all_texts c_text t -> exact_at engine t)). clear t.
  intros x pre mid Fp Fm A s G L. cbn [all_texts] in A. destruct A as (C & Ap & Am).
  apply fold_right_Forall in Ap. apply fold_right_Forall in Am.
  assert (Sp : Forall (exact_at engine) pre).
  { clear - Fp Ap. induction Fp; inversion Ap; subst; constructor; auto. }
  assert (Sm : Forall (exact_at engine) mid).
  { clear - Fm Am. induction Fm; inversion Am; subst; constructor; auto. }
  cbn [as_msg mm_LogMessage]. rewrite G. cbn [SaveAndSet_ctor SaveAndSet_dtor guard buffer]. rewrite G.
  destruct (fill_text (buffer s) x L C) as (b & F & Lb & Cb). rewrite F.
  assert (H0 : holds (mk false b) x) by (split; [reflexivity|split; assumption]).
  destruct engine.
  - destruct (each_exact true pre Sp _ x H0) as (s1 & E1 & H1). rewrite E1.
    rewrite (proj2 (proj2 H1)).
    destruct (each_exact true mid Sm s1 _ H1) as (s2 & E2 & H2). rewrite E2.
    rewrite (proj2 (proj2 H2)). exists s2. split; [reflexivity|]. exact H2.
  - cbn [buffer]. rewrite Cb.
    destruct (each_exact false mid Sm _ _ H0) as (s2 & E2 & H2). rewrite E2.
    rewrite (proj2 (proj2 H2)). exists s2. split; [reflexivity|]. exact H2.
Qed.

End Size.

(** ** Messages without nesting, and chains *)
Lemma written_plain size engine t : no_nesting t -> length (text_of t) <= size - 3 ->
  written size engine t = intended engine [t].
Proof.
  destruct t as [x pre mid]. cbn [no_nesting text_of]. intros [-> ->] L.
  assert (E : line_of size x = x ++ [NEWLINE]).
  { unfold line_of. replace (length x <=? size - 3) with true by (symmetry; apply Nat.leb_le; exact L). reflexivity. }
  unfold intended. cbn [flat_map text_of]. rewrite <- E. destruct engine; reflexivity.
Qed.

Lemma chain_texts (P : str -> Prop) x n : P x -> all_texts P (chain x n).
Proof. intros H. induction n as [|n IH]; cbn; auto. Qed.

Lemma left_chain x n : left_by true (chain x n) = x.
Proof. induction n as [|n IH]; [reflexivity|]. cbn. exact IH. Qed.

Lemma written_chain size x n :
  length (written size true (chain x n)) = 2 * (n + 1).
Proof.
  induction n as [|n IH]; [reflexivity|]. cbn [chain written flat_map]. rewrite app_nil_r.
  rewrite !app_length, IH. cbn. lia.
Qed.
