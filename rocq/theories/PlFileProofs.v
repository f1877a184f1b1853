From Coq Require Import List Arith Ascii Bool Lia.
From Verif Require Import Base StrModel StrSpec StrProofs PlFileModel PlFileSpec.
Import ListNotations.
Local Open Scope char_scope.
Local Open Scope nat_scope.
Notation length := List.length.

Lemma isalpha_letter c : isalpha c = true <-> letter c.
Proof.
  destruct c as [[] [] [] [] [] [] [] []]; vm_compute; split; intros H;
    try reflexivity; try discriminate; try tauto;
    repeat (destruct H as [H|H]; [discriminate|]); destruct H.
Qed.

Lemma letter_not_white c : letter c -> ~ white c.
Proof.
  rewrite <- isalpha_letter, <- isspace_white.
  destruct c as [[] [] [] [] [] [] [] []]; vm_compute; congruence.
Qed.

Lemma letter_not_nul c : letter c -> c <> NUL.
Proof. rewrite <- isalpha_letter. intros H ->. discriminate H. Qed.

Lemma nth_mid (p : str) c r : nth_error (p ++ c :: r) (length p) = Some c.
Proof. apply nth_error_split_at. Qed.

Lemma skipn_mid (p r : str) : skipn (length p) (p ++ r) = r.
Proof. rewrite skipn_app, skipn_all, Nat.sub_diag. reflexivity. Qed.

Lemma firstn_mid (p r : str) : firstn (length p) (p ++ r) = p.
Proof. rewrite firstn_app, firstn_all, Nat.sub_diag. apply app_nil_r. Qed.

Lemma eqb_neq (c d : ascii) : c <> d -> Ascii.eqb c d = false.
Proof. intros H. destruct (Ascii.eqb_spec c d); congruence. Qed.

(** ** The loops *)
Lemma quote_loop_spec c rest : c = NUL \/ c = QUOTE -> forall f p fuel,
  ~ In NUL f -> ~ In QUOTE f -> length f < fuel ->
  quote_loop fuel (p ++ f ++ c :: rest) (length p) = Some (p ++ f ++ NUL :: rest).
Proof.
  intros Hc f. induction f as [|x f IH]; intros p fuel Hn Hq Hl; (destruct fuel as [|fuel]; [cbn in Hl; lia|]);
    cbn [quote_loop app]; rewrite nth_mid.
  - destruct Hc as [-> | ->]; cbn; [reflexivity|]. apply poke_app.
  - rewrite (eqb_neq x NUL), (eqb_neq x QUOTE) by (intros ->; cbn in *; tauto).
    assert (E : p ++ x :: f ++ c :: rest = (p ++ [x]) ++ f ++ c :: rest) by (rewrite <- app_assoc; reflexivity).
    rewrite E. replace (S (length p)) with (length (p ++ [x])) by (rewrite app_length; cbn; lia).
    rewrite IH; cbn in *; try tauto; try lia. rewrite <- app_assoc. reflexivity.
Qed.

Lemma ws_loop_spec c rest : c = NUL \/ ~ white c -> forall sp p fuel,
  Forall white sp -> length sp < fuel ->
  ws_loop fuel (p ++ sp ++ c :: rest) (length p) = Some (length p + length sp).
Proof.
  intros Hc sp. induction sp as [|x sp IH]; intros p fuel Hw Hl; (destruct fuel as [|fuel]; [cbn in Hl; lia|]);
    cbn [ws_loop app]; rewrite nth_mid.
  - replace (negb (Ascii.eqb c NUL) && isspace c) with false; [cbn; f_equal; lia|].
    symmetry. destruct Hc as [-> | Hc]; [reflexivity|]. apply isspace_false in Hc. rewrite Hc. apply andb_false_r.
  - inversion Hw as [|? ? Hx Hs]; subst.
    rewrite (eqb_neq x NUL) by (intros ->; apply NUL_not_white; exact Hx).
    rewrite (proj2 (isspace_white x) Hx). cbn [negb andb].
    assert (E : p ++ x :: sp ++ c :: rest = (p ++ [x]) ++ sp ++ c :: rest) by (rewrite <- app_assoc; reflexivity).
    rewrite E. replace (S (length p)) with (length (p ++ [x])) by (rewrite app_length; cbn; lia).
    rewrite IH; [|exact Hs|cbn in Hl; lia]. rewrite app_length. cbn. f_equal. lia.
Qed.

Lemma trimmed_right_id s : ~ ends_white s -> trimmed_right s s.
Proof. intros H. exists []. rewrite app_nil_r. auto. Qed.
Lemma trimmed_left_id s : ~ starts_white s -> trimmed_left s s.
Proof. intros H. exists []. auto. Qed.

Lemma TrimRight_id s rest : ~ In NUL s -> ~ ends_white s ->
  UTIL_TrimRight (s ++ NUL :: rest) = Some (s ++ NUL :: rest).
Proof.
  intros Hn Hw. unfold UTIL_TrimRight. rewrite cstr_intro by exact Hn.
  rewrite (trimmed_right_unique _ _ _ (trim_right_fun s) (trimmed_right_id s Hw)).
  unfold store_str. rewrite app_length. cbn [length].
  rewrite (proj2 (Nat.leb_le _ _)) by lia.
  replace (s ++ NUL :: rest) with ((s ++ [NUL]) ++ rest) by (rewrite <- app_assoc; reflexivity).
  replace (length s + 1) with (length (s ++ [NUL])) by (rewrite app_length; reflexivity).
  rewrite skipn_mid. rewrite app_assoc. reflexivity.
Qed.

(** scan to the first white space *)
Lemma alias_loop_scan w : forall p r fuel, ~ In NUL w -> no_white w -> length w < fuel ->
  alias_loop fuel (p ++ w ++ r) (length p) = alias_loop (fuel - length w) (p ++ w ++ r) (length (p ++ w)).
Proof.
  induction w as [|x w IH]; intros p r fuel Hn Hw Hl.
  - rewrite app_nil_r. cbn. rewrite Nat.sub_0_r. reflexivity.
  - destruct fuel as [|fuel]; [cbn in Hl; lia|]. cbn [app length Nat.sub]. cbn [alias_loop].
    rewrite nth_mid. rewrite (eqb_neq x NUL) by (intros ->; cbn in *; tauto).
    rewrite (proj2 (isspace_false x)) by (apply Hw; left; reflexivity).
    assert (E : p ++ x :: w ++ r = (p ++ [x]) ++ w ++ r) by (rewrite <- app_assoc; reflexivity).
    rewrite E. replace (S (length p)) with (length (p ++ [x])) by (rewrite app_length; cbn; lia).
    rewrite IH; [| cbn in *; tauto | intros c Hc; apply Hw; right; exact Hc | cbn in Hl; lia].
    replace ((p ++ [x]) ++ w) with (p ++ x :: w) by (rewrite <- app_assoc; reflexivity). reflexivity.
Qed.

Lemma alias_loop_path w rest fuel : ~ In NUL w -> no_white w -> length w < fuel ->
  alias_loop fuel (w ++ NUL :: rest) 0 = Some (w ++ NUL :: rest, 0, []).
Proof.
  intros Hn Hw Hl. pose proof (alias_loop_scan w [] (NUL :: rest) fuel Hn Hw Hl) as H. cbn [app length] in H.
  rewrite H. destruct (fuel - length w) eqn:E; [lia|]. cbn [alias_loop]. rewrite nth_mid. reflexivity.
Qed.

Lemma ends_white_app a b : b <> [] -> ends_white (a ++ b) <-> ends_white b.
Proof.
  intros Hb. destruct (exists_last Hb) as (b' & x & ->). rewrite app_assoc. unfold ends_white. split.
  - intros (c & t & E & Hc). apply app_inj_tail in E. destruct E as [_ ->]. eauto.
  - intros (c & t & E & Hc). apply app_inj_tail in E. destruct E as [_ ->]. eauto.
Qed.

Lemma alias_loop_white w sp c v rest fuel :
  ~ In NUL (w ++ sp ++ c :: v) -> no_white w -> sp <> [] -> Forall white sp -> ~ white c ->
  ~ ends_white (w ++ sp ++ c :: v) -> length w < fuel ->
  exists b, alias_loop fuel (w ++ sp ++ c :: v ++ NUL :: rest) 0 =
    Some (b, (if isalpha c then length w + length sp else 0), (if isalpha c then [EAlias w (c :: v)] else [])) /\
    text_at b 0 = Some w /\ text_at b (length w + length sp) = Some (c :: v) /\
    length b = length (w ++ sp ++ c :: v ++ NUL :: rest).
Proof.
  intros Hn Hw Hsp Hsw Hc He Hl.
  destruct sp as [|x sp]; [congruence|]. inversion Hsw as [|? ? Hx Hs]; subst.
  assert (Hnw : ~ In NUL w) by (intros H; apply Hn; apply in_or_app; tauto).
  pose proof (alias_loop_scan w [] (x :: sp ++ c :: v ++ NUL :: rest) fuel Hnw Hw Hl) as H.
  cbn [app length] in H. cbn [app]. rewrite H. clear H.
  destruct (fuel - length w) as [|fuel'] eqn:E; [lia|]. cbn [alias_loop]. rewrite nth_mid.
  rewrite (eqb_neq x NUL) by (intros ->; apply NUL_not_white; exact Hx).
  rewrite (proj2 (isspace_white x) Hx).
  assert (Hws : ws_loop (S (length (w ++ x :: sp ++ c :: v ++ NUL :: rest))) (w ++ x :: sp ++ c :: v ++ NUL :: rest) (length w)
               = Some (length w + length (x :: sp))).
  { apply (ws_loop_spec c (v ++ NUL :: rest) (or_intror Hc) (x :: sp)); [exact Hsw|].
    rewrite !app_length. cbn [length]. rewrite !app_length. lia. }
  rewrite Hws. clear Hws. rewrite poke_app.
  set (b1 := w ++ NUL :: sp ++ c :: v ++ NUL :: rest).
  assert (Hb1 : b1 = (w ++ NUL :: sp) ++ (c :: v) ++ NUL :: rest) by (unfold b1; rewrite <- !app_assoc; reflexivity).
  assert (Hj : length w + length (x :: sp) = length (w ++ NUL :: sp)) by (rewrite app_length; reflexivity).
  rewrite Hj.
  assert (Hcv : ~ In NUL (c :: v)).
  { intros H; apply Hn. apply in_or_app; right; apply in_or_app; right. exact H. }
  assert (Hecv : ~ ends_white (c :: v)).
  { intros H. apply He. apply ends_white_app; [discriminate|]. apply ends_white_app; [discriminate|exact H]. }
  assert (HT : TrimRight_at b1 (length (w ++ NUL :: sp)) = Some b1).
  { unfold TrimRight_at. rewrite Hb1, skipn_mid. rewrite TrimRight_id by assumption. rewrite firstn_mid. reflexivity. }
  rewrite HT.
  assert (HN : nth_error b1 (length (w ++ NUL :: sp)) = Some c) by (rewrite Hb1; apply nth_mid).
  rewrite HN.
  assert (Ht0 : text_at b1 0 = Some w) by (unfold text_at, b1; cbn [skipn]; apply cstr_intro; exact Hnw).
  assert (Htj : text_at b1 (length (w ++ NUL :: sp)) = Some (c :: v)).
  { unfold text_at. rewrite Hb1, skipn_mid. apply cstr_intro; exact Hcv. }
  rewrite (eqb_neq c NUL) by (intros ->; apply Hcv; left; reflexivity). cbn [negb andb].
  rewrite Ht0, Htj.
  assert (Hlen : length b1 = length (w ++ x :: sp ++ c :: v ++ NUL :: rest))
    by (unfold b1; rewrite !app_length; cbn [length]; reflexivity).
  exists b1. destruct (isalpha c); auto.
Qed.

(** ** One line *)
Lemma first_quote f : (~ In QUOTE f) \/ exists a r, f = a ++ QUOTE :: r /\ ~ In QUOTE a.
Proof.
  induction f as [|c f IH]; [left; intros []|].
  destruct (Ascii.eqb_spec c QUOTE) as [-> | Hc]; [right; exists [], f; split; [reflexivity|intros []]|].
  destruct IH as [IH | (a & r & -> & Ha)].
  - left. intros [H | H]; [congruence|tauto].
  - right. exists (c :: a), r. split; [reflexivity|]. intros [H | H]; [congruence|tauto].
Qed.

Lemma first_white t : no_white t \/ exists w sp r, t = w ++ sp ++ r /\ no_white w /\ sp <> [] /\ Forall white sp /\ ~ starts_white r.
Proof.
  destruct (word_and_rest t) as [w r] eqn:E. apply word_and_rest_spec in E. destruct E as (-> & Hw & [-> | Hr]).
  - left. rewrite app_nil_r. exact Hw.
  - right. destruct (drop_space_spec r) as (sp & E & Hs & Hd). exists w, sp, (drop_space r). rewrite <- E.
    split; [reflexivity|]. split; [exact Hw|]. split; [|auto].
    intros ->. cbn in E. rewrite <- E in Hd. auto.
Qed.

Lemma comment_dec c s : 
  (Ascii.eqb c ";" || (Ascii.eqb c "/" && match s with d :: _ => Ascii.eqb d "/" | [] => false end)) = true
  <-> comment (c :: s).
Proof.
  unfold comment. destruct (Ascii.eqb_spec c ";") as [-> | H1]; cbn [orb].
  - split; [intros _; exists s; auto|reflexivity].
  - destruct (Ascii.eqb_spec c "/") as [-> | H2]; cbn [andb].
    + destruct s as [|d s]; [split; [discriminate|intros (r & [H|H]); discriminate]|].
      destruct (Ascii.eqb_spec d "/") as [-> | H3].
      * split; [intros _; exists s; auto|reflexivity].
      * split; [discriminate|intros (r & [H|H]); inversion H; congruence].
    + split; [discriminate|intros (r & [H|H]); inversion H; congruence].
Qed.

Lemma text_at_mid p s rest : ~ In NUL s -> text_at (p ++ s ++ NUL :: rest) (length p) = Some s.
Proof. intros H. unfold text_at. rewrite skipn_mid. apply cstr_intro; exact H. Qed.

Lemma line_body_spec b s : cstr b = Some s ->
  exists b' r t, line_body b = Some (b', entry_events r) /\ trimmed s t /\ line_means t r /\ length b' = length b.
Proof.
  intros Hb. destruct (UTIL_TrimLeft_spec _ _ Hb) as (b1 & u & H1 & Hu & Tu & L1).
  destruct (UTIL_TrimRight_spec _ _ Hu) as (b2 & t & H2 & Ht & Tt & L2).
  assert (Htr : trimmed s t) by (exists u; auto).
  assert (Hew : ~ ends_white t) by (destruct Tt as (? & ? & ? & ?); assumption).
  assert (Hsw : ~ starts_white t).
  { destruct Tu as (? & _ & _ & Hs). destruct Tt as (sp & -> & _ & _). intros (c & v & -> & Hc). apply Hs.
    exists c, (v ++ sp). auto. }
  unfold line_body. rewrite H1, H2, Ht.
  rewrite <- L1, <- L2. clear b Hb H1 H2 L1 L2 Hu Tu Tt b1 u.
  destruct t as [|c t].
  { exists b2, None, []. repeat split; auto. apply lm_blank; reflexivity. }
  destruct (proj1 (cstr_some _ _) Ht) as (rest & Eb & Hn).
  destruct (_ || _) eqn:Ec.
  { exists b2, None, (c :: t). repeat split; auto. apply lm_comment. apply comment_dec; exact Ec. }
  assert (Hnc : ~ comment (c :: t)) by (rewrite <- comment_dec, Ec; discriminate).
  destruct (Ascii.eqb_spec c QUOTE) as [-> | Hq].
  - (* quoted *)
    assert (Hnt : ~ In NUL t) by (cbn in Hn; tauto).
    destruct (first_quote t) as [Hf | (f & r & -> & Hf)].
    + assert (E : quote_loop (S (length b2)) b2 1 = Some b2).
      { rewrite Eb. apply (quote_loop_spec NUL rest (or_introl eq_refl) t [QUOTE]); auto.
        cbn [app length]. rewrite app_length. cbn. lia. }
      assert (E1 : text_at b2 1 = Some t) by (rewrite Eb; apply (text_at_mid [QUOTE] t rest Hnt)).
      rewrite E, E1.
      destruct t as [|d t].
      * exists b2, None, [QUOTE]. repeat split; auto. apply (lm_empty_quotes _ []). left; reflexivity.
      * exists b2, (Some (None, d :: t)), (QUOTE :: d :: t). repeat split; auto.
        apply lm_open; [reflexivity|exact Hf|discriminate].
    + assert (Hnf : ~ In NUL f) by (intros H; apply Hnt; apply in_or_app; auto).
      assert (E : quote_loop (S (length b2)) b2 1 = Some ([QUOTE] ++ f ++ NUL :: r ++ NUL :: rest)).
      { rewrite Eb. replace ((QUOTE :: f ++ QUOTE :: r) ++ NUL :: rest) with ([QUOTE] ++ f ++ QUOTE :: r ++ NUL :: rest)
          by (cbn; rewrite <- app_assoc; reflexivity).
        apply (quote_loop_spec QUOTE (r ++ NUL :: rest) (or_intror eq_refl) f [QUOTE]); auto.
        cbn [app length]. rewrite app_length. cbn. lia. }
      rewrite E. rewrite (text_at_mid [QUOTE] f (r ++ NUL :: rest) Hnf : text_at _ 1 = Some f).
      assert (L : length ([QUOTE] ++ f ++ NUL :: r ++ NUL :: rest) = length b2)
        by (rewrite Eb; cbn [app length]; rewrite !app_length; cbn [length]; rewrite !app_length; cbn [length]; lia).
      destruct f as [|d f].
      * eexists _, None, _. split; [reflexivity|]. split; [exact Htr|]. split; [|exact L].
        apply (lm_empty_quotes _ r). right; reflexivity.
      * eexists _, (Some (None, d :: f)), _. split; [reflexivity|]. split; [exact Htr|]. split; [|exact L].
        apply (lm_quoted _ _ r); [reflexivity|exact Hf|discriminate].
  - assert (Hnq : ~ quoted (c :: t)) by (intros (r & E); injection E as E _; apply Hq; exact E).
    remember (c :: t) as T eqn:ET.
    destruct (first_white T) as [Hw | (w & sp & r & E & Hw & Hsp & Hs & Hr)].
    + assert (EA : alias_loop (S (length b2)) b2 0 = Some (b2, 0, []))
        by (rewrite Eb; apply alias_loop_path; auto; rewrite app_length; cbn; lia).
      assert (E0 : text_at b2 0 = Some T) by (rewrite Eb; apply (text_at_mid [] T rest Hn)).
      rewrite EA, E0. exists b2, (Some (None, T)), T.
      split; [rewrite ET; reflexivity|]. split; [exact Htr|]. split; [|reflexivity].
      apply lm_path; auto. subst T; discriminate.
    + destruct r as [|d v].
      { exfalso. apply Hew. rewrite E, app_nil_r. apply ends_white_app; [exact Hsp|].
        destruct (exists_last Hsp) as (sp' & x & ->). exists x, sp'. split; [reflexivity|].
        rewrite Forall_forall in Hs. apply Hs. apply in_or_app. right; left; reflexivity. }
      assert (Hd : ~ white d) by (intros H; apply Hr; exists d, v; auto).
      destruct w as [|x w].
      { exfalso. apply Hsw. rewrite E. destruct sp as [|y sp]; [congruence|]. exists y, (sp ++ d :: v).
        split; [reflexivity|]. inversion Hs; assumption. }
      assert (Eb' : b2 = (x :: w) ++ sp ++ d :: v ++ NUL :: rest) by (rewrite Eb, E, <- !app_assoc; reflexivity).
      destruct (alias_loop_white (x :: w) sp d v rest (S (length b2))) as (b3 & E3 & T0 & T1 & L3); auto.
      { rewrite <- E; exact Hn. } { rewrite <- E; exact Hew. }
      { rewrite Eb'. rewrite app_length. lia. }
      rewrite <- Eb' in L3, E3. rewrite E3.
      destruct (isalpha d) eqn:Ed.
      * rewrite T1. exists b3, (Some (Some (x :: w), d :: v)), T. split; [reflexivity|]. split; [exact Htr|].
        split; [|exact L3]. apply (lm_alias _ (x :: w) sp d v); auto; [discriminate|]. apply isalpha_letter; exact Ed.
      * rewrite T0. exists b3, (Some (None, x :: w)), T. split; [reflexivity|]. split; [exact Htr|].
        split; [|exact L3]. apply (lm_word _ (x :: w) sp d v); auto; [discriminate|].
        rewrite <- isalpha_letter, Ed. discriminate.
Qed.

(** ** Lines and pieces *)
Lemma drop_space_snoc l x : white x ->
  drop_space (l ++ [x]) = match drop_space l with [] => [] | u => u ++ [x] end.
Proof.
  intros Hx. induction l as [|c l IH]; cbn [app drop_space].
  - rewrite (proj2 (isspace_white x) Hx). reflexivity.
  - destruct (isspace c); [exact IH|reflexivity].
Qed.

Lemma trimmed_fun s : trimmed s (rev (drop_space (rev (drop_space s)))).
Proof. exists (drop_space s). split; [apply drop_space_spec|apply trim_right_fun]. Qed.

Lemma trimmed_unique s t1 t2 : trimmed s t1 -> trimmed s t2 -> t1 = t2.
Proof.
  intros (u1 & A1 & B1) (u2 & A2 & B2). rewrite (trimmed_left_unique _ _ _ A1 A2) in B1.
  exact (trimmed_right_unique _ _ _ B1 B2).
Qed.

Lemma trimmed_snoc l x t : white x -> trimmed (l ++ [x]) t -> trimmed l t.
Proof.
  intros Hx H. pose proof (trimmed_unique _ _ _ H (trimmed_fun _)) as ->.
  rewrite (drop_space_snoc _ _ Hx).
  assert (E : rev (drop_space (rev match drop_space l with [] => [] | u => u ++ [x] end))
              = rev (drop_space (rev (drop_space l)))).
  { destruct (drop_space l) as [|c u]; [reflexivity|]. rewrite rev_app_distr. cbn [rev app drop_space].
    rewrite (proj2 (isspace_white x) Hx). reflexivity. }
  pose proof (trimmed_fun l) as K. rewrite <- E in K. exact K.
Qed.

Lemma NL_white : white NL.
Proof. apply isspace_white. reflexivity. Qed.

Lemma line_means_nil r : line_means [] r -> r = None.
Proof.
  intros H. inversion H as [| | f r' E | f E | | E | w sp c v E _ _ Hw | w sp c v E _ _ Hw]; subst; try reflexivity; try discriminate; try congruence.
  - destruct w; [congruence|discriminate].
  - destruct w; [congruence|discriminate].
Qed.

Lemma upto_nul_total p : exists s, upto_nul p s.
Proof.
  induction p as [|c p (s & Hs & H)]; [exists []; split; [intros []|left; reflexivity]|].
  destruct (Ascii.eqb_spec c NUL) as [-> | Hc].
  - exists []. split; [intros []|]. right. exists p. reflexivity.
  - exists (c :: s). split; [intros [E|E]; [congruence|tauto]|].
    destruct H as [-> | (r & ->)]; [left; reflexivity|right; exists r; reflexivity].
Qed.

Lemma store_cstr b p : length p + 1 <= length b ->
  exists b' s, store_str b p = Some b' /\ cstr b' = Some s /\ upto_nul p s /\ length b' = length b.
Proof.
  intros Hl. unfold store_str. rewrite (proj2 (Nat.leb_le _ _) Hl).
  destruct (upto_nul_total p) as (s & Hs & H). exists (p ++ [NUL] ++ skipn (length p + 1) b), s.
  split; [reflexivity|]. split; [|split; [split; assumption|]].
  - apply cstr_some. destruct H as [-> | (r & ->)].
    + exists (skipn (length p + 1) b). auto.
    + eexists. rewrite <- app_assoc. split; [reflexivity|exact Hs].
  - rewrite !app_length, skipn_length. cbn [length]. lia.
Qed.

Lemma upto_nul_snoc l s : upto_nul (l ++ [NL]) s -> 
  (exists s', s = s' ++ [NL] /\ upto_nul l s') \/ upto_nul l s.
Proof.
  intros (Hn & [-> | (r & E)]).
  - left. exists l. split; [reflexivity|]. split; [|left; reflexivity].
    intros H; apply Hn; apply in_or_app; auto.
  - right. destruct r as [|c r] using rev_ind.
    + apply app_inj_tail in E. destruct E as [_ E]. discriminate E.
    + clear IHr. assert (E' : l ++ [NL] = (s ++ NUL :: r) ++ [c]) by (rewrite <- app_assoc; exact E).
      apply app_inj_tail in E'. destruct E' as [-> _]. split; [exact Hn|]. right. eauto.
Qed.

Lemma entry_snoc l r : line_entry (l ++ [NL]) r -> line_entry l r.
Proof.
  intros (s & t & Hu & Ht & Hm). apply upto_nul_snoc in Hu. destruct Hu as [(s' & -> & Hu) | Hu].
  - exists s', t. split; [exact Hu|]. split; [|exact Hm]. exact (trimmed_snoc _ _ _ NL_white Ht).
  - exists s, t. auto.
Qed.

Lemma line_step b p : length p + 1 <= length b ->
  exists b1 b2 r, store_str b p = Some b1 /\ line_body b1 = Some (b2, entry_events r) /\
                  line_entry p r /\ length b2 = length b.
Proof.
  intros Hl. destruct (store_cstr b p Hl) as (b1 & s & E1 & Hs & Hu & L1).
  destruct (line_body_spec _ _ Hs) as (b2 & r & t & E2 & Ht & Hm & L2).
  exists b1, b2, r. split; [exact E1|]. split; [exact E2|]. split; [exists s, t; auto|congruence].
Qed.

Lemma take_line_short l s k : ~ In NL l -> length l < k -> take_line k (l ++ NL :: s) = (l ++ [NL], s).
Proof.
  revert k. induction l as [|c l IH]; intros [|k] Hn Hl; cbn in Hl; try lia; cbn [app take_line].
  - reflexivity.
  - rewrite (eqb_neq c NL) by (intros ->; cbn in Hn; tauto). rewrite IH; [reflexivity|cbn in Hn; tauto|lia].
Qed.

Lemma take_line_full l s : ~ In NL l -> take_line (length l) (l ++ s) = (l, s).
Proof.
  induction l as [|c l IH]; intros Hn; cbn [app take_line length].
  - destruct s; reflexivity.
  - rewrite (eqb_neq c NL) by (intros ->; cbn in Hn; tauto). rewrite IH; [reflexivity|cbn in Hn; tauto].
Qed.

Lemma take_line_end l k : ~ In NL l -> length l <= k -> take_line k l = (l, []).
Proof.
  revert k. induction l as [|c l IH]; intros k Hn Hl; [destruct k; reflexivity|].
  destruct k as [|k]; cbn in Hl; [lia|]. cbn [take_line].
  rewrite (eqb_neq c NL) by (intros ->; cbn in Hn; tauto). rewrite IH; [reflexivity|cbn in Hn; tauto|lia].
Qed.

Lemma entry_blank r : line_entry [NL] r -> r = None.
Proof.
  intros H. apply (entry_snoc []) in H. destruct H as (s & t & (_ & [-> | (r' & E)]) & Ht & Hm).
  - pose proof (trimmed_unique _ _ _ Ht (trimmed_fun _)) as ->. cbn in Hm. apply line_means_nil; exact Hm.
  - destruct s; discriminate E.
Qed.

Lemma file_loop_cons fuel b s p r : s <> [] -> take_line (length b - 1) s = (p, r) -> length p + 1 <= length b ->
  exists b' x, line_entry p x /\ length b' = length b /\
    forall evs, file_loop fuel b' r = Some evs -> file_loop (S fuel) b s = Some (entry_events x ++ evs).
Proof.
  intros Hs E Hl. destruct (line_step b p Hl) as (b1 & b2 & x & E1 & E2 & Hx & L).
  exists b2, x. split; [exact Hx|]. split; [exact L|]. intros evs H.
  destruct s as [|c s]; [congruence|]. cbn [file_loop]. rewrite E, E1, E2, H. reflexivity.
Qed.

Lemma file_loop_lines n ls : forall b last fuel,
  length b = S n -> 0 < n ->
  Forall (fun l => ~ In NL l /\ length l <= n) ls -> ~ In NL last -> length last <= n ->
  length (file_of ls last) <= fuel ->
  exists rs, file_loop fuel b (file_of ls last) = Some (concat (map entry_events rs)) /\
             Forall2 line_entry (all_lines ls last) rs.
Proof.
  induction ls as [|l ls IH]; intros b last fuel Hb Hn0 Hls Hnl Hlast Hf.
  - unfold file_of, all_lines in *. cbn [map concat app] in *. destruct last as [|c last].
    + exists []. destruct fuel; split; cbn; auto.
    + destruct fuel as [|fuel]; [cbn in Hf; lia|].
      destruct (file_loop_cons fuel b (c :: last) (c :: last) []) as (b' & x & Hx & L & H);
        [discriminate|apply take_line_end; [exact Hnl|lia]|lia|].
      exists [x]. split; [|constructor; [exact Hx|constructor]]. cbn [map concat]. apply H.
      destruct fuel; reflexivity.
  - inversion Hls as [|? ? [Hl1 Hl2] Hls']; subst.
    assert (E : file_of (l :: ls) last = l ++ NL :: file_of ls last).
    { unfold file_of. cbn [map concat]. rewrite <- !app_assoc. reflexivity. }
    rewrite E in *. rewrite app_length in Hf. cbn [length] in Hf.
    destruct (Nat.eq_dec (length l) n) as [En | En].
    + destruct fuel as [|[|fuel]]; [lia|lia|].
      destruct (file_loop_cons (S fuel) b (l ++ NL :: file_of ls last) l (NL :: file_of ls last)) as (b' & x & Hx & L & H);
        [destruct l; discriminate|rewrite Hb, <- En; cbn [Nat.sub]; rewrite Nat.sub_0_r; apply take_line_full; exact Hl1|lia|].
      destruct (file_loop_cons fuel b' (NL :: file_of ls last) [NL] (file_of ls last)) as (b'' & y & Hy & L' & H');
        [discriminate|rewrite L, Hb; apply (take_line_short []); [intros []|cbn; lia]|cbn; lia|].
      destruct (IH b'' last fuel) as (rs & Hrs & HF); auto; [lia|lia|].
      exists (x :: rs). split; [|constructor; assumption].
      cbn [map concat]. apply H. apply entry_blank in Hy. subst y. exact (H' _ Hrs).
    + destruct fuel as [|fuel]; [lia|].
      destruct (file_loop_cons fuel b (l ++ NL :: file_of ls last) (l ++ [NL]) (file_of ls last)) as (b' & x & Hx & L & H);
        [destruct l; discriminate|apply take_line_short; [exact Hl1|lia]|rewrite app_length; cbn [length]; lia|].
      destruct (IH b' last fuel) as (rs & Hrs & HF); auto; [lia|lia|].
      exists (x :: rs). split; [|constructor; [apply entry_snoc; exact Hx|exact HF]].
      cbn [map concat]. exact (H _ Hrs).
Qed.

(** Any file: what fgets returns *)
Lemma take_line_pieces k s p r : 0 < k -> s <> [] -> take_line k s = (p, r) ->
  s = p ++ r /\ p <> [] /\ length p <= k /\ (forall a c b, p = a ++ NL :: c :: b -> False) /\
  (r <> [] -> length p < k -> exists a, p = a ++ [NL]).
Proof.
  revert s p r. induction k as [|k IH]; intros s p r Hk Hs E; [lia|].
  destruct s as [|c s]; [congruence|]. cbn [take_line] in E.
  destruct (Ascii.eqb_spec c NL) as [-> | Hc].
  - injection E as <- <-. split; [reflexivity|]. split; [discriminate|]. split; [cbn; lia|]. split.
    + intros [|x a] d b H; [discriminate|]. injection H as _ H. destruct a; discriminate.
    + intros _ _. exists []. reflexivity.
  - destruct (take_line k s) as [p' r'] eqn:E'. injection E as <- <-.
    destruct k as [|k].
    { cbn in E'. assert (p' = [] /\ r' = s) as [-> ->] by (destruct s; injection E' as <- <-; auto).
      split; [reflexivity|]. split; [discriminate|]. split; [cbn; lia|]. split.
      - intros [|x a] d b H; [discriminate|]. injection H as _ H. destruct a; discriminate.
      - cbn. intros _ H. lia. }
    destruct s as [|d s].
    { cbn in E'. injection E' as <- <-. split; [reflexivity|]. split; [discriminate|]. split; [cbn; lia|]. split.
      - intros [|x a] d b H; [discriminate|]. injection H as _ H. destruct a; discriminate.
      - congruence. }
    destruct (IH (d :: s) p' r') as (E1 & E2 & E3 & E4 & E5); [lia|discriminate|exact E'|].
    split; [rewrite E1; reflexivity|]. split; [discriminate|]. split; [cbn; lia|]. split.
    + intros [|x a] e b H; [injection H as H _; congruence|]. injection H as _ H. exact (E4 _ _ _ H).
    + intros Hr Hl. destruct E5 as (a & ->); [exact Hr|cbn in Hl; lia|]. exists (c :: a). reflexivity.
Qed.

Inductive fgets_pieces (n : nat) : str -> list str -> Prop :=
| fp_nil : fgets_pieces n [] []
| fp_cons p r ps : p <> [] -> length p <= n -> (forall a c b, p = a ++ NL :: c :: b -> False) ->
    (r <> [] -> length p < n -> exists a, p = a ++ [NL]) -> fgets_pieces n r ps ->
    fgets_pieces n (p ++ r) (p :: ps).

Lemma file_loop_pieces n fuel : forall b s, length b = S n -> 0 < n -> length s <= fuel ->
  exists ps rs, file_loop fuel b s = Some (concat (map entry_events rs)) /\
                fgets_pieces n s ps /\ Forall2 line_entry ps rs.
Proof.
  induction fuel as [|fuel IH]; intros b s Hb Hn Hl; (destruct s as [|c s];
    [exists [], []; cbn; repeat split; constructor|]); [cbn in Hl; lia|].
  remember (c :: s) as s0. assert (Hs0 : s0 <> []) by (subst; discriminate).
  destruct (take_line (length b - 1) s0) as [p r] eqn:E.
  assert (E' : take_line n s0 = (p, r)) by (rewrite <- E; f_equal; lia).
  destruct (take_line_pieces n s0 p r Hn Hs0 E') as (E1 & E2 & E3 & E4 & E5).
  destruct (file_loop_cons fuel b s0 p r Hs0 E) as (b' & x & Hx & L & H); [lia|].
  destruct (IH b' r) as (ps & rs & A & B & C); [lia|exact Hn| |].
  { assert (length s0 = length p + length r) by (rewrite E1, app_length; reflexivity).
    destruct p; [congruence|]. cbn [length] in *. lia. }
  exists (p :: ps), (x :: rs). split; [cbn [map concat]; exact (H _ A)|]. split; [|constructor; assumption].
  rewrite E1. constructor; assumption.
Qed.

(** ** The meaning of a line is unique *)
Lemma split_first (P : ascii -> Prop) a x r b y r' :
  a ++ x :: r = b ++ y :: r' -> (forall c, In c a -> ~ P c) -> (forall c, In c b -> ~ P c) -> P x -> P y ->
  a = b /\ x = y /\ r = r'.
Proof.
  revert b. induction a as [|c a IH]; intros [|d b] E Ha Hb Hx Hy; cbn in E; injection E as E1 E2; subst.
  - auto.
  - exfalso. apply (Hb d); [left; reflexivity|exact Hx].
  - exfalso. apply (Ha y); [left; reflexivity|exact Hy].
  - destruct (IH b E2) as (-> & -> & ->); auto; intros e He; [apply Ha|apply Hb]; right; exact He.
Qed.

Lemma word_split w sp c v w' sp' c' v' :
  w ++ sp ++ c :: v = w' ++ sp' ++ c' :: v' ->
  no_white w -> no_white w' -> sp <> [] -> sp' <> [] -> Forall white sp -> Forall white sp' -> ~ white c -> ~ white c' ->
  w = w' /\ c :: v = c' :: v'.
Proof.
  intros E Hw Hw' Hs Hs' Hf Hf' Hc Hc'.
  destruct sp as [|x sp]; [congruence|]. destruct sp' as [|y sp']; [congruence|]. cbn [app] in E.
  inversion Hf; subst; inversion Hf'; subst.
  destruct (split_first white w x (sp ++ c :: v) w' y (sp' ++ c' :: v')) as (-> & -> & E'); auto.
  split; [reflexivity|].
  destruct (split_first (fun d => ~ white d) sp c v sp' c' v') as (_ & -> & ->); auto.
  - intros d Hd H. apply H. rewrite Forall_forall in *. auto.
  - intros d Hd H. apply H. rewrite Forall_forall in *. auto.
Qed.

Lemma no_white_split w sp c v : no_white (w ++ sp ++ c :: v) -> sp <> [] -> Forall white sp -> False.
Proof.
  intros H Hs Hf. destruct sp as [|x sp]; [congruence|]. inversion Hf; subst.
  apply (H x); [|assumption]. apply in_or_app; right; left; reflexivity.
Qed.

Lemma q_comment t : comment ("034" :: t) -> False.
Proof. intros (r & [H | H]); discriminate. Qed.

Lemma line_means_unique t r1 r2 : line_means t r1 -> line_means t r2 -> r1 = r2.
Proof.
  intros H1 H2.
  assert (Hnil : t = [] -> r1 = r2).
  { intros ->. apply line_means_nil in H1, H2. congruence. }
  destruct t as [|x t]; [auto|]. clear Hnil.
  assert (Hq : x = QUOTE -> r1 = r2).
  { intros ->. 
    assert (K : forall r, line_means (QUOTE :: t) r ->
      (exists f rr, t = f ++ "034" :: rr /\ ~ In "034" f /\ r = match f with [] => None | _ => Some (None, f) end) \/
      (~ In "034" t /\ r = match t with [] => None | _ => Some (None, t) end)).
    { intros r H. inversion H as [E | Hc | f r' E Hf Hne | f E Hf Hne | r' [E | E] | A B C | w sp c v E Hc Hqq | w sp c v E Hc Hqq]; subst.
      - discriminate.
      - destruct (q_comment _ Hc).
      - injection E as ->. left. exists f, r'. repeat split; auto. destruct f; [congruence|reflexivity].
      - injection E as ->. right. split; [exact Hf|]. destruct f; [congruence|reflexivity].
      - injection E as ->. right. split; [intros []|reflexivity].
      - injection E as ->. left. exists [], r'. repeat split; auto.
      - destruct C; exists t; reflexivity.
      - destruct Hqq; exists t; reflexivity.
      - destruct Hqq; exists t; reflexivity. }
    destruct (K _ H1) as [(f & rr & E1 & F1 & ->) | (F1 & ->)]; destruct (K _ H2) as [(f' & rr' & E2 & F2 & ->) | (F2 & ->)].
    - rewrite E1 in E2. destruct (split_first (eq "034") f "034" rr f' "034" rr') as (-> & _ & _); auto; intros c Hc Hx; subst c; auto.
    - destruct F2. rewrite E1. apply in_or_app; right; left; reflexivity.
    - destruct F1. rewrite E2. apply in_or_app; right; left; reflexivity.
    - reflexivity. }
  destruct (Ascii.eqb_spec x QUOTE) as [-> | Hx]; [auto|]. clear Hq. unfold QUOTE in Hx.
  inversion H1 as [E | Hc | f r' E Hf Hne | f E Hf Hne | r' [E | E] | A B C D | w sp c v E Hc Hqq Hw0 Hw Hs0 Hs Hl | w sp c v E Hc Hqq Hw0 Hw Hs0 Hs Hcw Hl]; subst r1;
    try discriminate E; try (injection E as E _; congruence);
  inversion H2 as [E' | Hc' | f2 r2' E' Hf' Hne' | f2 E' Hf' Hne' | r2' [E' | E'] | A' B' C' D' | w' sp' c' v' E' Hc' Hqq' Hw0' Hw' Hs0' Hs' Hl' | w' sp' c' v' E' Hc' Hqq' Hw0' Hw' Hs0' Hs' Hcw' Hl']; subst r2;
    try discriminate E'; try (injection E' as E' _; congruence); try reflexivity; try contradiction.
  - rewrite E' in D. destruct (no_white_split _ _ _ _ D Hs0' Hs').
  - rewrite E' in D. destruct (no_white_split _ _ _ _ D Hs0' Hs').
  - rewrite E in D'. destruct (no_white_split _ _ _ _ D' Hs0 Hs).
  - rewrite E in E'. destruct (word_split _ _ _ _ _ _ _ _ E') as [-> Ev]; auto using letter_not_white.
    injection Ev as -> ->. reflexivity.
  - rewrite E in E'. destruct (word_split _ _ _ _ _ _ _ _ E') as [-> Ev]; auto using letter_not_white.
    injection Ev as -> ->. contradiction.
  - rewrite E in D'. destruct (no_white_split _ _ _ _ D' Hs0 Hs).
  - rewrite E in E'. destruct (word_split _ _ _ _ _ _ _ _ E') as [-> Ev]; auto using letter_not_white.
    injection Ev as -> ->. contradiction.
  - rewrite E in E'. destruct (word_split _ _ _ _ _ _ _ _ E') as [-> Ev]; auto.
Qed.

(** ** Plugin paths *)
Lemma printf_plain p : ~ In "%" p -> printf_noargs p = Some p.
Proof.
  induction p as [|c p IH]; intros H; [reflexivity|]. cbn [printf_noargs].
  rewrite (eqb_neq c "%") by (intros ->; apply H; left; reflexivity).
  rewrite IH by (intros H'; apply H; right; exact H'). reflexivity.
Qed.

Lemma is_abs_spec p : p <> [] -> exists a, is_abs p = Some a /\ (a = true <-> absolute p).
Proof.
  intros Hp. destruct p as [|c r]; [congruence|]. eexists. split; [reflexivity|].
  unfold absolute. destruct (Ascii.eqb_spec c "/") as [-> | Hc]; cbn [orb].
  - split; [intros _; left; eauto|reflexivity].
  - destruct r as [|d [|e r]].
    + split; [discriminate|]. intros [(x & H) | (x & y & H)]; [congruence|discriminate].
    + split; [discriminate|]. intros [(x & H) | (x & y & H)]; [congruence|discriminate].
    + destruct (Ascii.eqb_spec d ":") as [-> | Hd]; [destruct (Ascii.eqb_spec e "\") as [-> | He]|]; cbn [andb].
      * split; [intros _; right; eauto|reflexivity].
      * split; [discriminate|]. intros [(x & H) | (x & y & H)]; congruence.
      * split; [discriminate|]. intros [(x & H) | (x & y & H)]; congruence.
Qed.
