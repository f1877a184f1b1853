(** Proofs about relative paths. *)
From Coq Require Import List Bool Arith Ascii Lia.
From Verif Require Import Base StrModel RelModel RelSpec.
Import ListNotations.
Open Scope char_scope.
Open Scope nat_scope.

Lemma sepb_spec c : reflect (c = "/") (is_sepb c).
Proof. unfold is_sepb, SEP. apply Ascii.eqb_spec. Qed.

Lemma fields_nonnil s : fields s <> [].
Proof. destruct s as [|c s]; cbn [fields]; [discriminate|]. destruct (ascii_dec c "/"); [discriminate|]. destruct (fields s); discriminate. Qed.
Lemma fields_sep s : fields ("/" :: s) = [] :: fields s.
Proof. cbn [fields]. destruct (ascii_dec "/" "/"); [reflexivity|contradiction]. Qed.
Lemma fields_app a b : fields (a ++ "/" :: b) = fields a ++ fields b.
Proof.
  induction a as [|c a IH]; cbn [app]; [rewrite fields_sep; reflexivity|]. cbn [fields]. rewrite IH.
  destruct (ascii_dec c "/"); [reflexivity|]. destruct (fields a) as [|f fs] eqn:E; [exfalso; exact (fields_nonnil a E)|]. reflexivity.
Qed.
Lemma walk_app d a b : walk d (a ++ b) = walk (walk d a) b.
Proof. apply fold_left_app. Qed.

Lemma step_proper d f : proper f -> step d f = f :: d.
Proof.
  intros (A & B & C). unfold step. destruct (list_eq_dec ascii_dec f []); [contradiction|]. destruct (list_eq_dec ascii_dec f ["."]); [contradiction|].
  destruct (list_eq_dec ascii_dec f ["."; "."]); [contradiction|reflexivity].
Qed.
Lemma walk_proper l : forall d, Forall proper l -> walk d l = rev l ++ d.
Proof.
  induction l as [|f l IH]; intros d F; [reflexivity|]. inversion F as [|? ? F1 F2]; subst. change (walk d (f :: l)) with (walk (step d f) l).
  rewrite (step_proper d f F1), (IH _ F2). cbn [rev]. rewrite <- app_assoc. reflexivity.
Qed.
Definition dd : str := ["."; "."].
Lemma walk_ups n : forall (l d : list str), length l = n -> walk (l ++ d) (repeat dd n) = d.
Proof.
  induction n as [|n IH]; intros l d L; cbn [repeat].
  - destruct l; [reflexivity|discriminate].
  - destruct l as [|x l]; [discriminate|]. change (walk ((x :: l) ++ d) (dd :: repeat dd n)) with (walk (step ((x :: l) ++ d) dd) (repeat dd n)).
    cbn [app]. change (step (x :: l ++ d) dd) with (l ++ d). apply IH. injection L; auto.
Qed.
Lemma walk_back l d : Forall proper l -> walk d (l ++ repeat dd (length l)) = d.
Proof. intro F. rewrite walk_app, (walk_proper _ _ F). apply walk_ups. apply rev_length. Qed.

(** The common root *)
Lemma common_root_spec to : forall from pre root a b,
  (forall x y, root = Some (x, y) -> exists p, pre ++ to = p ++ x /\ pre ++ from = p ++ y /\ (exists x' y', x = "/" :: x' /\ y = "/" :: y')) ->
  common_root to from root = Some (a, b) ->
  exists p a' b', pre ++ to = p ++ "/" :: a' /\ pre ++ from = p ++ "/" :: b' /\ a = "/" :: a' /\ b = "/" :: b'.
Proof.
  assert (D : forall pre to from root a b,
    (forall x y, root = Some (x, y) -> exists p, pre ++ to = p ++ x /\ pre ++ from = p ++ y /\ (exists x' y', x = "/" :: x' /\ y = "/" :: y')) ->
    root = Some (a, b) -> exists p a' b', pre ++ to = p ++ "/" :: a' /\ pre ++ from = p ++ "/" :: b' /\ a = "/" :: a' /\ b = "/" :: b').
  { intros pre to0 from root a b H E. destruct (H a b E) as (p & H1 & H2 & x' & y' & -> & ->). exists p, x', y'; auto. }
  induction to as [|c to IH]; intros from pre root a b H E; cbn [common_root] in E; [exact (D _ _ _ _ _ _ H E)|].
  destruct from as [|d from]; [exact (D _ _ _ _ _ _ H E)|].
  destruct (sepb_spec c) as [C|C], (sepb_spec d) as [D'|D']; cbn [andb] in E.
  - subst c d. destruct (IH from (pre ++ ["/"]) (Some ("/" :: to, "/" :: from)) a b) as (p & a' & b' & P1 & P2 & P3 & P4); [|exact E|].
    + intros x y X. injection X as <- <-. exists pre. rewrite <- !app_assoc. cbn [app]. split; [reflexivity|split; [reflexivity|]]. eauto.
    + rewrite <- !app_assoc in P1, P2. cbn [app] in P1, P2. exists p, a', b'; auto.
  - destruct (Ascii.eqb_spec c d) as [X|X]; [exfalso; congruence|]. cbn [negb] in E. exact (D _ _ _ _ _ _ H E).
  - destruct (Ascii.eqb_spec c d) as [X|X]; [exfalso; congruence|]. cbn [negb] in E. exact (D _ _ _ _ _ _ H E).
  - destruct (Ascii.eqb_spec c d) as [X|X]; cbn [negb] in E; [|exact (D _ _ _ _ _ _ H E)]. subst d.
    destruct (IH from (pre ++ [c]) root a b) as (p & a' & b' & P1 & P2 & P3 & P4); [|exact E|].
    + intros x y X. destruct (H x y X) as (p & H1 & H2 & H3). exists p. rewrite <- !app_assoc. cbn [app]. auto.
    + rewrite <- !app_assoc in P1, P2. cbn [app] in P1, P2. exists p, a', b'; auto.
Qed.
Lemma common_root_some to : forall from root, root <> None -> common_root to from root <> None.
Proof.
  induction to as [|c to IH]; intros from root N; cbn [common_root]; [exact N|]. destruct from as [|d from]; [exact N|].
  destruct (is_sepb c && is_sepb d); [apply IH; discriminate|]. destruct (negb (Ascii.eqb c d)); [exact N|apply IH; exact N].
Qed.

(** Levels *)
Definition nonempty (f : str) : bool := match f with [] => false | _ => true end.
Lemma count_levels_spec a : (forall l z, fields a = l ++ [z] -> Forall proper l) -> count_levels ("/" :: a) = length (filter nonempty (fields a)).
Proof.
  (* counting from inside a field *)
  assert (K : forall x, (forall f l z, fields x = f :: l ++ [z] -> Forall proper l) ->
            count_levels x = length (filter nonempty (tl (fields x)))).
  { clear a. intro x. induction x as [|c a0 IH]; intro H; [reflexivity|]. cbn [count_levels fields] in *.
    destruct (sepb_spec c) as [C|C]; destruct (ascii_dec c "/") as [C'|C']; try contradiction.
    - cbn [tl]. destruct a0 as [|d a1]; [reflexivity|].
      assert (H' : forall f l z, fields (d :: a1) = f :: l ++ [z] -> Forall proper (f :: l)).
      { intros f l z E. apply (H [] (f :: l) z). rewrite E. reflexivity. }
      rewrite IH by (intros f l z E; specialize (H' f l z E); inversion H'; assumption).
      destruct (fields (d :: a1)) as [|f fs] eqn:E; [exfalso; exact (fields_nonnil _ E)|]. cbn [tl filter].
      assert (NF : f <> []).
      { destruct fs as [|g fs].
        - cbn [fields] in E. destruct (ascii_dec d "/"); [injection E as E1 E2; exfalso; exact (fields_nonnil _ E2)|].
          destruct (fields a1); inversion E; discriminate.
        - destruct (exists_last (l := g :: fs) ltac:(discriminate)) as (l & z & EL). rewrite EL in H'. specialize (H' f l z eq_refl).
          inversion H' as [|? ? (X & _) _]; exact X. }
      destruct f; [contradiction|reflexivity].
    - rewrite IH.
      + destruct (fields a0) as [|f fs] eqn:E; [exfalso; exact (fields_nonnil _ E)|]. reflexivity.
      + intros f l z E. apply (H (c :: f) l z). rewrite E. reflexivity. }
  intro H. destruct a as [|c a]; [reflexivity|]. change (count_levels ("/" :: c :: a)) with (S (count_levels (c :: a))).
  rewrite K.
  - destruct (fields (c :: a)) as [|f fs] eqn:E; [exfalso; exact (fields_nonnil _ E)|]. cbn [tl filter].
    assert (NF : f <> []).
    { destruct fs as [|g fs].
      - cbn [fields] in E. destruct (ascii_dec c "/"); [injection E as E1 E2; exfalso; exact (fields_nonnil _ E2)|].
        destruct (fields a); inversion E; discriminate.
      - destruct (exists_last (l := g :: fs) ltac:(discriminate)) as (l & z & EL). rewrite EL in H. specialize (H (f :: l) z eq_refl).
        inversion H as [|? ? (X & _) _]; exact X. }
    destruct f; [contradiction|reflexivity].
  - intros f l z E. specialize (H (f :: l) z E). inversion H; assumption.
Qed.

Lemma write_ups_spec n : forall text maxlen r, write_ups n text maxlen = Some r -> r = text ++ concat (repeat ["."; "."; "/"] n).
Proof.
  induction n as [|n IH]; intros text maxlen r E; cbn [write_ups repeat concat] in *; [injection E as <-; rewrite app_nil_r; reflexivity|].
  destruct (3 <? maxlen - length text); [|discriminate]. apply IH in E. rewrite E, <- app_assoc. reflexivity.
Qed.
Lemma write_ups_fits n : forall text maxlen, length text + 3 * n < maxlen -> write_ups n text maxlen <> None.
Proof.
  induction n as [|n IH]; intros text maxlen L; cbn [write_ups]; [discriminate|].
  destruct (Nat.ltb_spec 3 (maxlen - length text)); [|lia]. apply IH. rewrite app_length. cbn [length]. lia.
Qed.
Lemma fields_ups n b : fields (concat (repeat ["."; "."; "/"] n) ++ b) = repeat dd n ++ fields b.
Proof.
  induction n as [|n IH]; cbn [repeat concat app]; [reflexivity|]. cbn [fields].
  destruct (ascii_dec "." "/") as [X|_]; [discriminate X|]. destruct (ascii_dec "/" "/"); [|contradiction].
  rewrite IH. reflexivity.
Qed.

Lemma suffix_normal l1 l2 (l : list str) z : l1 ++ l2 = l ++ [z] -> Forall proper l -> (proper z \/ z = []) -> l2 <> [] ->
  exists l', l2 = l' ++ [z] /\ Forall proper l'.
Proof.
  intros E F Z N. destruct (exists_last N) as (l' & z' & EL). rewrite EL, app_assoc in E. apply app_inj_tail in E. destruct E as (E & ->).
  exists l'. split; [exact EL|]. rewrite <- E in F. apply Forall_app in F; tauto.
Qed.

Lemma filter_proper l : Forall proper l -> filter nonempty l = l.
Proof. intro F; induction F as [|f l (N & _) F IH]; cbn [filter]; [reflexivity|]. destruct f; [contradiction|]. cbn [nonempty]. rewrite IH. reflexivity. Qed.

Theorem bad_relatize_ok maxlen p1 p2 out : normal p1 -> bad_relatize maxlen p1 p2 = Some out -> denote (p1 ++ "/" :: out) = denote p2.
Proof.
  intros (l & z & N & F & Z) E. unfold bad_relatize in E. destruct (negb (isabsolute p1) || negb (isabsolute p2)); [discriminate|].
  destruct (common_root p1 p2 None) as [[a b]|] eqn:R; [|discriminate].
  destruct (common_root_spec p1 p2 [] None a b) as (p & a' & b' & P1 & P2 & -> & ->); [discriminate|exact R|]. cbn [app] in P1, P2. cbn [tl] in E.
  set (n := match a' with [] => 0 | _ => count_levels ("/" :: a') end) in *.
  destruct (write_ups n [] maxlen) as [text|] eqn:WU; [|discriminate]. apply write_ups_spec in WU. cbn [app] in WU.
  destruct (length b' <? maxlen - length text); [|discriminate]. injection E as <-. subst text.
  (* fields *)
  rewrite P1, fields_app in N.
  assert (SF : exists l', fields a' = l' ++ [z] /\ Forall proper l').
  { destruct (fields p) as [|f fs] eqn:EF; [exfalso; exact (fields_nonnil _ EF)|]. cbn [app] in N. injection N as -> N.
    exact (suffix_normal _ _ _ _ N F Z (fields_nonnil a')). }
  destruct SF as (l' & FA & FP).
  assert (EN : n = length (filter nonempty (fields a'))).
  { assert (C : count_levels ("/" :: a') = length (filter nonempty (fields a'))).
    { apply count_levels_spec. intros l0 z0 E0. rewrite FA in E0. apply app_inj_tail in E0; destruct E0 as (<- & _). exact FP. }
    unfold n. destruct a'; [reflexivity|exact C]. }
  unfold denote. rewrite fields_app, P1, P2, !fields_app, fields_ups, <- app_assoc. rewrite (walk_app [] (fields p)), (walk_app [] (fields p) (fields b')).
  set (d := walk [] (fields p)). rewrite app_assoc, walk_app. f_equal.
  assert (EL : length (filter nonempty (l' ++ [z])) = length l' + length (filter nonempty [z])).
  { rewrite filter_app, app_length. f_equal. f_equal. exact (filter_proper l' FP). }
  rewrite EN, FA, EL.
  destruct Z as [Z| ->].
  - assert (FZ : Forall proper (l' ++ [z])) by (apply Forall_app; auto). pose proof (walk_back (l' ++ [z]) d FZ) as W.
    rewrite app_length in W. destruct Z as (NZ & _). destruct z; [contradiction|]. exact W.
  - cbn [filter nonempty length]. rewrite Nat.add_0_r. rewrite <- app_assoc. cbn [app].
    rewrite walk_app. change (walk (walk d l') ([] :: repeat dd (length l'))) with (walk (walk d l') (repeat dd (length l'))).
    rewrite <- walk_app. exact (walk_back l' d FP).
Qed.

(** SplitPath *)
Definition names (s : str) : list str := filter nonempty (fields s).
Lemma walk_names l : forall d, walk d (filter nonempty l) = walk d l.
Proof.
  induction l as [|f l IH]; intro d; cbn [filter]; [reflexivity|]. destruct f as [|c f]; cbn [nonempty].
  - rewrite IH. reflexivity.
  - change (walk d ((c :: f) :: filter nonempty l)) with (walk (step d (c :: f)) (filter nonempty l)). rewrite IH. reflexivity.
Qed.
Lemma skip_sep_names s : names (skip_sep s) = names s.
Proof.
  induction s as [|c s IH]; [reflexivity|]. cbn [skip_sep]. destruct (Ascii.eqb_spec c SEP) as [C|C]; [|reflexivity].
  rewrite IH. unfold SEP in C; subst c. unfold names. rewrite fields_sep. reflexivity.
Qed.
Lemma take_part_spec s : forall part rest, take_part s = (part, rest) -> s = part ++ rest /\ ~ In "/" part /\ (rest = [] \/ exists t, rest = "/" :: t).
Proof.
  induction s as [|c s IH]; intros part rest E; cbn [take_part] in E; [injection E as <- <-; cbn; auto|].
  destruct (sepb_spec c) as [C|C]; [injection E as <- <-; subst c; split; [reflexivity|split; [intros []|right; eexists; reflexivity]]|].
  destruct (take_part s) as [a b]. injection E as <- <-. destruct (IH a b eq_refl) as (-> & N & R). split; [reflexivity|split; [|exact R]].
  intros [X|X]; [congruence|contradiction].
Qed.
Lemma fields_plain s : ~ In "/" s -> fields s = [s].
Proof.
  induction s as [|c s IH]; intro N; cbn [fields]; [reflexivity|]. destruct (ascii_dec c "/") as [X|X]; [exfalso; apply N; left; exact X|].
  rewrite IH by (intro I; apply N; right; exact I). reflexivity.
Qed.
Lemma skip_sep_len s : length (skip_sep s) <= length s.
Proof. induction s as [|c s IH]; cbn [skip_sep length]; [lia|]. destruct (Ascii.eqb c SEP); cbn [length]; lia. Qed.

Lemma split_loop_spec fuel : forall s, length s < fuel -> (s = [] \/ exists c t, s = c :: t /\ c <> "/") -> split_loop fuel s = Some (names s).
Proof.
  induction fuel as [|fuel IH]; intros s L H; [lia|]. destruct s as [|c s]; [reflexivity|]. cbn [split_loop].
  destruct H as [H|(c' & t & E & NC)]; [discriminate|]. injection E as <- <-.
  destruct (take_part (c :: s)) as [part rest] eqn:T. assert (T' := T). destruct (take_part_spec _ _ _ T') as (E & NI & R).
  assert (NP : exists p', part = c :: p').
  { cbn [take_part] in T. destruct (sepb_spec c); [contradiction|]. destruct (take_part s). injection T as <- <-. eauto. }
  destruct NP as (p' & ->).
  rewrite IH.
  - rewrite skip_sep_names, E. f_equal. unfold names. destruct R as [->|(t & ->)].
    + rewrite app_nil_r. rewrite (fields_plain _ NI). reflexivity.
    + rewrite fields_app, fields_sep, (fields_plain _ NI). reflexivity.
  - pose proof (skip_sep_len rest). rewrite E in L. rewrite app_length in L. cbn [length] in L. lia.
  - clear. induction rest as [|d r IH]; [left; reflexivity|]. cbn [skip_sep]. destruct (Ascii.eqb_spec d SEP); [exact IH|].
    right; exists d, r; split; [reflexivity|exact n].
Qed.
Lemma split_path_spec s : absolute s -> split_path s = Some ([SEP] :: names s).
Proof.
  intros (t & ->). unfold split_path. change (is_sepb "/") with true. cbn iota. rewrite split_loop_spec.
  - rewrite skip_sep_names. reflexivity.
  - pose proof (skip_sep_len ("/" :: t)). lia.
  - clear. generalize ("/" :: t) as r. induction r as [|d r IH]; [left; reflexivity|]. cbn [skip_sep]. destruct (Ascii.eqb_spec d SEP); [exact IH|].
    right; exists d, r; split; [reflexivity|exact n].
Qed.

Lemma skip_same_spec a : forall b r1 r2, skip_same a b = (r1, r2) -> exists c, a = c ++ r1 /\ b = c ++ r2.
Proof.
  induction a as [|x a IH]; intros b r1 r2 E; cbn [skip_same] in E; [injection E as <- <-; exists []; auto|].
  destruct b as [|y b]; [injection E as <- <-; exists []; auto|]. unfold str_eqb in E. destruct (list_eq_dec ascii_dec x y) as [X|X].
  - destruct (IH _ _ _ E) as (c & -> & ->). exists (x :: c). subst; auto.
  - injection E as <- <-; exists []; auto.
Qed.

(** the components of a path contain no slash *)
Lemma fields_no_sep s : Forall (fun f => ~ In "/" f) (fields s).
Proof.
  induction s as [|c s IH]; cbn [fields]; [repeat constructor; intros []|]. destruct (ascii_dec c "/") as [X|X].
  - constructor; [intros []|exact IH].
  - destruct (fields s) as [|f fs]; [repeat constructor; intros [Y|[]]; congruence|]. inversion IH as [|? ? A B]; subst. constructor; [|exact B].
    intros [Y|Y]; [congruence|contradiction].
Qed.
Lemma join_names l t : Forall (fun f => ~ In "/" f /\ f <> []) l -> t = [] \/ t = ["/"] -> filter nonempty (fields (join_parts l ++ t)) = l.
Proof.
  intros F T. assert (T0 : filter nonempty (fields t) = []) by (destruct T as [->| ->]; reflexivity).
  induction F as [|f l (N & M) F IH]; cbn [join_parts]; [cbn [app]; exact T0|]. destruct l as [|g l].
  - destruct T as [->| ->].
    + rewrite app_nil_r, (fields_plain _ N). destruct f; [contradiction|reflexivity].
    + rewrite fields_app, (fields_plain _ N). destruct f; [contradiction|reflexivity].
  - rewrite <- app_assoc. cbn [app]. unfold SEP. rewrite fields_app, (fields_plain _ N). cbn [app filter]. destruct f; [contradiction|]. cbn [nonempty]. f_equal. exact IH.
Qed.

Lemma normal_names s : normal s -> Forall proper (names s).
Proof.
  intros (l & z & E & F & Z). unfold names. rewrite E. cbn [filter nonempty]. rewrite filter_app. apply Forall_app; split.
  - exact (eq_ind_r (fun x => Forall proper x) F (filter_proper l F)).
  - destruct Z as [Z| ->]; [|constructor]. cbn [filter]. destruct z; [constructor|]. repeat constructor; apply Z.
Qed.

Lemma flat_ups (r : list str) : flat_map (fun _ => ["."; "."; SEP]) r = concat (repeat ["."; "."; "/"] (length r)).
Proof. induction r as [|x r IH]; cbn [flat_map length repeat concat]; [reflexivity|]. rewrite IH. reflexivity. Qed.

Theorem new_path_ok p1 p2 r1 r2 : normal p1 -> skip_same (names p1) (names p2) = (r1, r2) ->
  denote (p1 ++ "/" :: new_path r1 r2 p2) = denote p2.
Proof.
  intros N E. destruct (skip_same_spec _ _ _ _ E) as (c & E1 & E2). pose proof (normal_names p1 N) as P. rewrite E1 in P. apply Forall_app in P; destruct P as (P1 & P2).
  unfold denote. rewrite fields_app. rewrite <- (walk_names (fields p1 ++ _)), <- (walk_names (fields p2)). rewrite filter_app.
  change (filter nonempty (fields p1)) with (names p1). change (filter nonempty (fields p2)) with (names p2). rewrite E1, E2.
  unfold new_path. rewrite flat_ups, fields_ups, filter_app, join_names.
  - rewrite <- !app_assoc, !walk_app. f_equal. 
    assert (FD : filter nonempty (repeat dd (length r1)) = repeat dd (length r1)) by (clear; induction (length r1) as [|n IH]; cbn [repeat filter]; [reflexivity|]; rewrite IH; reflexivity).
    rewrite FD, <- walk_app. apply walk_back; exact P2.
  - apply Forall_forall; intros f I. assert (J : In f (names p2)) by (rewrite E2; apply in_or_app; auto). unfold names in J. apply filter_In in J; destruct J as (J & K).
    split; [exact (proj1 (Forall_forall _ _) (fields_no_sep p2) f J)|]. intros ->. discriminate K.
  - destruct (ends_sep p2); auto.
Qed.
