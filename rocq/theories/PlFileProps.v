(** C49: the lines of the plugin list file; C57: plugin paths. *)
From Coq Require Import List Arith Ascii Bool Lia String.
From Verif Require Import Base StrModel StrSpec StrProofs PlFileModel PlFileSpec PlFileProofs.
Import ListNotations.
Local Open Scope char_scope.
Local Open Scope nat_scope.
Notation length := List.length.
Local Notation concat := List.concat.

Local Definition S_ (s : string) : str := list_ascii_of_string s.

(** Every text has exactly one meaning, ... *)
Theorem C49_meaning : forall s, exists t r, trimmed s t /\ line_means t r /\
  forall t' r', trimmed s t' -> line_means t' r' -> t' = t /\ r' = r.
Proof.
  intros s.
  assert (K : exists t r, trimmed s t /\ line_means t r).
  {
    exists (rev (drop_space (rev (drop_space s)))).
    pose proof (trimmed_fun s) as Ht. set (t := rev (drop_space (rev (drop_space s)))) in *. clearbody t.
    assert (Hew : ~ ends_white t) by (destruct Ht as (? & _ & (? & _ & _ & H)); exact H).
    assert (Hsw : ~ starts_white t).
    { destruct Ht as (u & (? & _ & _ & Hs) & (sp & -> & _ & _)). intros (c & v & -> & Hc). apply Hs.
      exists c, (v ++ sp). auto. }
    destruct t as [|c t]; [exists None; split; [exact Ht|apply lm_blank; reflexivity]|].
    destruct (Ascii.eqb c ";" || (Ascii.eqb c "/" && match t with d :: _ => Ascii.eqb d "/" | [] => false end)) eqn:Ec.
    { exists None. split; [exact Ht|]. apply lm_comment, comment_dec; exact Ec. }
    assert (Hnc : ~ comment (c :: t)) by (rewrite <- comment_dec, Ec; discriminate).
    destruct (Ascii.eqb_spec c "034") as [-> | Hq].
    - destruct (first_quote t) as [Hf | (f & r & -> & Hf)].
      + destruct t as [|d t].
        * exists None. split; [exact Ht|]. apply (lm_empty_quotes _ []). left; reflexivity.
        * eexists. split; [exact Ht|]. apply lm_open; [reflexivity|exact Hf|discriminate].
      + destruct f as [|d f].
        * exists None. split; [exact Ht|]. apply (lm_empty_quotes _ r). right; reflexivity.
        * eexists. split; [exact Ht|]. apply (lm_quoted _ (d :: f) r); [reflexivity|exact Hf|discriminate].
    - assert (Hnq : ~ quoted (c :: t)) by (intros (r & E); congruence).
      destruct (first_white (c :: t)) as [Hw | (w & sp & r & E & Hw & Hsp & Hs & Hr)].
      + eexists. split; [exact Ht|]. apply lm_path; auto. discriminate.
      + destruct r as [|d v].
        { exfalso. apply Hew. rewrite E, app_nil_r. apply ends_white_app; [exact Hsp|].
          destruct (exists_last Hsp) as (sp' & x & ->). exists x, sp'. split; [reflexivity|].
          rewrite Forall_forall in Hs. apply Hs. apply in_or_app. right; left; reflexivity. }
        assert (Hw0 : w <> []).
        { intros ->. apply Hsw. rewrite E. destruct sp as [|y sp]; [congruence|]. exists y, (sp ++ d :: v).
          split; [reflexivity|]. inversion Hs; assumption. }
        destruct (isalpha d) eqn:Ed.
        * eexists. split; [exact Ht|]. apply (lm_alias _ w sp d v); auto. apply isalpha_letter; exact Ed.
        * eexists. split; [exact Ht|]. apply (lm_word _ w sp d v); auto.
          -- intros H. apply Hr. exists d, v. auto.
          -- rewrite <- isalpha_letter, Ed. discriminate. }
  destruct K as (t & r & Ht & Hm). exists t, r. split; [exact Ht|]. split; [exact Hm|].
  intros t' r' Ht' Hm'. pose proof (trimmed_unique _ _ _ Ht' Ht) as ->. split; [reflexivity|].
  exact (line_means_unique _ _ _ Hm' Hm).
Qed.
Print Assumptions C49_meaning.

(** ... and one iteration of the loop does what that meaning says, without touching
    anything outside of the array. *)
Theorem C49_line : forall b s t r, cstr b = Some s -> trimmed s t -> line_means t r ->
  exists b', line_body b = Some (b', entry_events r) /\ length b' = length b.
Proof.
  intros b s t r Hb Ht Hm. destruct (line_body_spec b s Hb) as (b' & r' & t' & E & Ht' & Hm' & L).
  pose proof (trimmed_unique _ _ _ Ht' Ht) as ->. rewrite (line_means_unique _ _ _ Hm Hm'). eauto.
Qed.
Print Assumptions C49_line.

Example C49_line_ex :
  line_body (S_ "  sm   addons/sm/bin/sm_mm  " ++ [NL; NUL; NUL]) =
    Some (S_ "sm" ++ NUL :: S_ "  addons/sm/bin/sm_mm" ++ [NUL; " "; NL; NUL; NL; NUL; NUL],
          [EAlias (S_ "sm") (S_ "addons/sm/bin/sm_mm"); ELoad (S_ "addons/sm/bin/sm_mm")])
  /\ line_means (S_ "sm   addons/sm/bin/sm_mm") (Some (Some (S_ "sm"), S_ "addons/sm/bin/sm_mm")).
Proof.
  split; [vm_compute; reflexivity|].
  apply (lm_alias _ (S_ "sm") (S_ "   ") "a" (S_ "ddons/sm/bin/sm_mm")).
  - reflexivity.
  - intros (r & [H|H]); discriminate.
  - intros (r & H); discriminate.
  - discriminate.
  - intros c Hc. apply isspace_false. destruct Hc as [<- | [<- | []]]; reflexivity.
  - discriminate.
  - repeat constructor; apply isspace_white; reflexivity.
  - apply isalpha_letter; reflexivity.
Qed.

(** A file whose lines have at most 254 bytes: exactly one entry per line, in order,
    whatever the array contained before. *)
Theorem C49_file : forall b ls last,
  length b = 255 -> Forall (fun l => ~ In "010" l /\ length l <= 254) ls ->
  ~ In "010" last -> length last <= 254 ->
  exists rs, LoadPluginsFromFile b (file_of ls last) = Some (concat (map entry_events rs)) /\
             Forall2 line_entry (all_lines ls last) rs.
Proof.
  intros b ls last Hb Hls Hn Hl. unfold LoadPluginsFromFile.
  apply (file_loop_lines 254 ls b last); auto; lia.
Qed.
Print Assumptions C49_file.

Example C49_file_ex :
  LoadPluginsFromFile (repeat NUL 255)
    (file_of [S_ "; comment"; S_ "// comment"; S_ "  "; S_ ""; S_ "a/b"; [QUOTE] ++ S_ "c d" ++ [QUOTE]; S_ "x  y"] (S_ "z"))
  = Some [ELoad (S_ "a/b"); ELoad (S_ "c d"); EAlias (S_ "x") (S_ "y"); ELoad (S_ "y"); ELoad (S_ "z")].
Proof. vm_compute. reflexivity. Qed.

(** Any file: one entry per piece that fgets returns. *)
Theorem C49_pieces : forall b contents, length b = 255 ->
  exists ps rs, LoadPluginsFromFile b contents = Some (concat (map entry_events rs)) /\
                fgets_pieces 254 contents ps /\ Forall2 line_entry ps rs.
Proof. intros b contents Hb. apply file_loop_pieces; auto; lia. Qed.
Print Assumptions C49_pieces.

(** What can be an entry: never more than one plugin; comments and white space none;
    a path and an alias never begin with a quote and, unless the path was quoted, have
    no white space at their ends; an alias has none at all. *)
Theorem C49_entry : forall l r, line_entry l r ->
  length (plugins_of (entry_events r)) <= 1 /\
  (Forall white l -> r = None) /\
  (forall sp c rest, l = sp ++ c :: rest -> Forall white sp -> comment (c :: rest) -> ~ In NUL l -> r = None) /\
  (forall a f, r = Some (a, f) ->
     f <> [] /\ ~ quoted f /\
     match a with Some w => w <> [] /\ ~ quoted w /\ no_white w /\ ~ starts_white f /\ ~ ends_white f | None => True end /\
     (forall sp c rest, l = sp ++ c :: rest -> Forall white sp -> ~ white c -> c <> "034" -> ~ starts_white f /\ ~ ends_white f)).
Proof.
  intros l r (s & t & Hu & Ht & Hm).
  assert (Hew : ~ ends_white t) by (destruct Ht as (? & _ & (? & _ & _ & H)); exact H).
  assert (Hsw : ~ starts_white t).
  { destruct Ht as (u & (? & _ & _ & Hs) & (sp & -> & _ & _)). intros (c & v & -> & Hc). apply Hs.
    exists c, (v ++ sp). auto. }
  split; [destruct r as [[[a|] f]|]; cbn; lia|].
  assert (Hhead : forall sp c rest, l = sp ++ c :: rest -> Forall white sp -> ~ white c -> c <> NUL ->
                  exists t', t = c :: t').
  { intros sp c rest El Hs Hc Hc0.
    assert (Hs' : exists s', s = sp ++ c :: s').
    { destruct Hu as (Hn & [-> | (x & E)]); [eauto|]. rewrite El in E. clear El Ht.
      revert s Hn E. induction sp as [|y sp IH]; intros s Hn E.
      - destruct s as [|z s]; cbn in E; injection E as E1 E2; [congruence|]. subst. exists s. reflexivity.
      - destruct s as [|z s]; cbn in E; injection E as E1 E2; subst.
        + inversion Hs; subst. destruct NUL_not_white; assumption.
        + inversion Hs; subst. destruct (IH H2 s) as (s' & ->); [cbn in Hn; tauto|exact E2|]. exists s'. reflexivity. }
    destruct Hs' as (s' & ->). destruct Ht as (u & Hu1 & Hu2).
    assert (Hu3 : trimmed_left (sp ++ c :: s') (c :: s')).
    { exists sp. split; [reflexivity|]. split; [exact Hs|]. intros (d & v & E & Hd). injection E as -> ->. contradiction. }
    rewrite (trimmed_left_unique _ _ _ Hu1 Hu3) in Hu2. destruct Hu2 as (sp2 & E & Hs2 & _).
    destruct t as [|d t]; cbn in E.
    - exfalso. rewrite <- E in Hs2. inversion Hs2; contradiction.
    - injection E as -> _. eauto. }
  split; [|split].
  - intros Hl. assert (Hs : Forall white s).
    { rewrite Forall_forall in *. intros c Hc. destruct Hu as (_ & [-> | (x & ->)]); [auto|].
      apply Hl. apply in_or_app; auto. }
    assert (t = []).
    { apply (trimmed_unique s _ _ Ht). exists []. split.
      - exists s. rewrite app_nil_r. repeat split; auto. intros (c & v & E & _). discriminate.
      - exists []. repeat split; auto. intros (c & v & E & _). destruct v; discriminate. }
    subst t. apply line_means_nil; exact Hm.
  - intros sp c rest El Hs Hc Hn.
    assert (Hcw : ~ white c).
    { apply isspace_false. destruct Hc as (x & [E|E]); injection E as -> _; reflexivity. }
    destruct Hu as (Hns & Hu).
    assert (s = l) by (destruct Hu as [-> | (x & ->)]; [reflexivity|]; exfalso; apply Hn; apply in_or_app; right; left; reflexivity).
    subst s. destruct Ht as (u & Hu1 & Hu2). rewrite El in Hu1.
    assert (Hu3 : trimmed_left (sp ++ c :: rest) (c :: rest)).
    { exists sp. split; [reflexivity|]. split; [exact Hs|]. intros (d & v & E & Hd). injection E as -> ->. contradiction. }
    rewrite (trimmed_left_unique _ _ _ Hu1 Hu3) in Hu2. destruct Hu2 as (sp2 & E & Hs2 & _).
    assert (Hct : comment t).
    { destruct Hc as (x & [Ex|Ex]); rewrite Ex in E; (destruct t as [|d t]; cbn in E;
        [rewrite <- E in Hs2; inversion Hs2; subst; exfalso; apply Hcw; injection Ex as -> _; assumption|]).
      - injection E as <- _. exists t. left; reflexivity.
      - injection E as <- E. destruct t as [|d t]; cbn in E.
        + rewrite <- E in Hs2. inversion Hs2; subst. exfalso. apply Hcw. injection Ex as -> _. assumption.
        + injection E as <- _. exists t. right; reflexivity. }
    exact (line_means_unique _ _ _ Hm (lm_comment _ Hct)).
  - intros a f ->.
    assert (Hclean : ~ quoted t -> ~ starts_white f /\ ~ ends_white f).
    { intros Hq. inversion Hm as [| | f' x E | f' E | | E1 E2 E3 E4 | w sp c v E E1 E2 E3 E4 E5 E6 E7 | w sp c v E E1 E2 E3 E4 E5 E6 E7 E8]; subst.
      - destruct Hq; eexists; reflexivity.
      - destruct Hq; eexists; reflexivity.
      - split; assumption.
      - split.
        + intros (d & y & E & Hd). injection E as -> ->. apply (letter_not_white d); assumption.
        + intros H. apply Hew. apply ends_white_app; [destruct sp; discriminate|]. apply ends_white_app; [discriminate|exact H].
      - split; [intros (d & y & -> & Hd); apply (E4 d); [left; reflexivity|exact Hd]|].
        intros (d & y & -> & Hd); apply (E4 d); [apply in_or_app; right; left; reflexivity|exact Hd]. }
    assert (Hf : f <> [] /\ ~ quoted f).
    { inversion Hm as [| | f' x E Hin Hne | f' E Hin Hne | | E1 E2 E3 E4 | w sp c v E E1 E2 E3 E4 E5 E6 E7 | w sp c v E E1 E2 E3 E4 E5 E6 E7 E8]; subst.
      - split; [assumption|]. intros (y & ->). apply Hin; left; reflexivity.
      - split; [assumption|]. intros (y & ->). apply Hin; left; reflexivity.
      - split; assumption.
      - split; [discriminate|]. intros (y & H). injection H as -> _. apply isalpha_letter in E7. discriminate E7.
      - split; [assumption|]. intros (y & ->). apply E2. cbn. eexists; reflexivity. }
    split; [apply Hf|]. split; [apply Hf|]. split.
    + destruct a as [w|]; [|exact Logic.I].
      inversion Hm as [| | | | | | w' sp c v E E1 E2 E3 E4 E5 E6 E7 |]; subst.
      split; [assumption|]. split; [intros (y & ->); apply E2; cbn; eexists; reflexivity|].
      split; [assumption|]. apply Hclean; assumption.
    + intros sp c rest El Hs Hc Hq. destruct (Ascii.eqb_spec c NUL) as [-> | Hc0].
      * (* the text ends there: no plugin *)
        exfalso. assert (s = [] \/ Forall white s) as Hs'.
        { right. destruct Hu as (Hn & [-> | (x & E)]).
          - exfalso. apply Hn. rewrite El. apply in_or_app; right; left; reflexivity.
          - rewrite El in E. destruct (split_first (eq NUL) sp NUL rest s NUL x) as (-> & _); auto;
              intros d Hd Hx; subst d; [|contradiction]. rewrite Forall_forall in Hs. apply NUL_not_white; auto. }
        assert (t = []).
        { apply (trimmed_unique s _ _ Ht). exists []. destruct Hs' as [-> | Hs'].
          - split; exists []; (repeat split; auto); intros (d & v & E & _); [discriminate|destruct v; discriminate].
          - split; [exists s; rewrite app_nil_r|exists []]; (repeat split; auto); intros (d & v & E & _); [discriminate|destruct v; discriminate]. }
        subst t. apply line_means_nil in Hm. discriminate.
      * destruct (Hhead sp c rest El Hs Hc Hc0) as (t' & ->). apply Hclean. intros (y & E). injection E as -> _. congruence.
Qed.
Print Assumptions C49_entry.

Example C49_entry_ex : line_entry (S_ " sm  a/b ") (Some (Some (S_ "sm"), S_ "a/b")).
Proof.
  exists (S_ " sm  a/b "), (S_ "sm  a/b"). split; [split; [|left; reflexivity]|split].
  - cbn. intuition discriminate.
  - apply trimmed_fun.
  - apply (lm_alias _ (S_ "sm") (S_ "  ") "a" (S_ "/b")).
    + reflexivity.
    + intros (r & [H|H]); discriminate.
    + intros (r & H); discriminate.
    + discriminate.
    + intros c Hc. apply isspace_false. destruct Hc as [<- | [<- | []]]; reflexivity.
    + discriminate.
    + repeat constructor; apply isspace_white; reflexivity.
    + apply isalpha_letter; reflexivity.
Qed.

(** Findings *)

(** A longer line yields two plugins. *)
Theorem C49_long_line_refuted : exists line, ~ In "010" line /\
  forall b, length b = 255 -> exists p1 p2,
    LoadPluginsFromFile b (file_of [line] []) = Some [ELoad p1; ELoad p2] /\ line = p1 ++ p2.
Proof.
  exists (repeat "a" 256). split.
  - intros H. apply repeat_spec in H. discriminate.
  - intros b Hb. exists (repeat "a" 254), (repeat "a" 2). split; [|reflexivity].
    unfold LoadPluginsFromFile, file_of. cbn [map concat app]. rewrite !app_nil_r.
    change (repeat "a" 256 ++ ["010"]) with (repeat "a" 254 ++ "a" :: "a" :: ["010"]).
    set (p := repeat "a" 254). set (rest := "a" :: "a" :: ["010"]).
    assert (Hlp : length p = 254) by reflexivity.
    assert (Hp : ~ In NL p) by (intros H; apply repeat_spec in H; discriminate).
    assert (Hwp : no_white p).
    { intros c H. apply repeat_spec in H. subst c. apply isspace_false. reflexivity. }
    replace (length (p ++ rest)) with (S (S 255)) by (rewrite app_length, Hlp; reflexivity).
    destruct (file_loop_cons (S 255) b (p ++ rest) p rest) as (b' & x & Hx & L & H).
    { discriminate. }
    { rewrite Hb. change (255 - 1) with 254. rewrite <- Hlp. apply take_line_full. exact Hp. }
    { lia. }
    assert (Hex : forall q y, (forall c, In c q -> c = "a") -> q <> [] -> line_entry q y -> y = Some (None, q)).
    { intros q y Ha Hne (s & t & Hu & Ht & Hm).
      assert (Hw : no_white q) by (intros c Hc; rewrite (Ha c Hc); apply isspace_false; reflexivity).
      assert (s = q).
      { destruct Hu as (_ & [-> | (z & Ez)]); [reflexivity|]. exfalso.
        assert (Hz : In NUL q) by (rewrite Ez; apply in_or_app; right; left; reflexivity).
        apply Ha in Hz. discriminate. }
      subst s. assert (t = q).
      { apply (trimmed_unique q _ _ Ht). exists q. split; [apply trimmed_left_id|apply trimmed_right_id];
          intros (c & v & -> & Hc); (apply (Hw c); [|exact Hc]); [left; reflexivity|apply in_or_app; right; left; reflexivity]. }
      subst t. apply (line_means_unique _ _ _ Hm). destruct q as [|c q]; [congruence|].
      assert (Hca : c = "a") by (apply Ha; left; reflexivity).
      apply lm_path; auto; [intros (z & [E|E])|intros (z & E)]; injection E as E _; congruence. }
    apply Hex in Hx; [|intros c Hc; exact (repeat_spec _ _ _ Hc)|discriminate]. subst x.
    destruct (file_loop_cons 255 b' rest rest []) as (b2 & x2 & Hx2 & L2 & H2).
    { discriminate. } { rewrite L, Hb. reflexivity. } { cbn. lia. }
    apply (entry_snoc ["a"; "a"]) in Hx2. apply Hex in Hx2; [|intros c [E|[E|[]]]; congruence|discriminate]. subst x2.
    rewrite (H _ (H2 [] eq_refl)). reflexivity.
Qed.
Print Assumptions C49_long_line_refuted.

(** A quoted path keeps white space at its ends. *)
Theorem C49_quoted_white_refuted : exists f,
  LoadPluginsFromFile (repeat NUL 255) (file_of [[QUOTE] ++ f ++ [QUOTE]] []) = Some [ELoad f] /\
  starts_white f /\ ends_white f.
Proof.
  exists (S_ " a "). split; [vm_compute; reflexivity|].
  split; [exists " ", (S_ "a ")|exists " ", (S_ " a")]; (split; [reflexivity|apply isspace_white; reflexivity]).
Qed.
Print Assumptions C49_quoted_white_refuted.

(** With an alias in front, a path that does not begin with a letter is dropped and the
    alias is loaded as a plugin; nor is a quoted path recognised. *)
Theorem C49_alias_refuted :
  LoadPluginsFromFile (repeat NUL 255) (file_of [S_ "sm /opt/sourcemod_mm"] []) = Some [ELoad (S_ "sm")] /\
  LoadPluginsFromFile (repeat NUL 255) (file_of [S_ "sm ../sourcemod_mm"] []) = Some [ELoad (S_ "sm")] /\
  LoadPluginsFromFile (repeat NUL 255) (file_of [S_ "sm " ++ [QUOTE] ++ S_ "addons/source mod/x" ++ [QUOTE]] []) = Some [ELoad (S_ "sm")].
Proof. repeat split; vm_compute; reflexivity. Qed.
Print Assumptions C49_alias_refuted.

(** ** C57 *)
Theorem C57_relative : forall ex mod_path plugin b len,
  plugin <> [] -> ~ absolute plugin -> 0 < len -> len <= length b -> ~ In NUL (mod_path ++ plugin) ->
  let full ext := firstn (len - 1) (mod_path ++ "/" :: plugin ++ ext) in
  exists b' k ext, GetFullPluginPath ex mod_path plugin b len = Some (b', k) /\
    cstr b' = Some (slashed (full ext)) /\ k = length (full ext) /\ same_from len b b' /\
    ((exists e, extension plugin e) -> ext = []) /\
    ((forall e, ~ extension plugin e) ->
       ext = if ex (slashed (full (S_ ".x64.so"))) then S_ ".x64.so" else S_ ".so").
Proof.
  intros ex m p b len Hp Ha Hl Hb Hn full.
  assert (Hnf : forall ext, ~ In NUL ext -> ~ In NUL (m ++ "/" :: p ++ ext)).
  { intros ext He H. apply in_app_or in H. destruct H as [H | [H | H]].
    - apply Hn, in_or_app; auto.
    - discriminate.
    - apply in_app_or in H. destruct H as [H|H]; [apply Hn, in_or_app; auto|auto]. }
  unfold GetFullPluginPath. destruct (is_abs_spec p Hp) as (a & -> & Hspec).
  destruct a; [exfalso; apply Ha, Hspec; reflexivity|].
  destruct (UTIL_GetExtension_spec p) as (r & -> & Hr).
  assert (Hfmt : forall b0 ext, length b0 = length b -> ~ In NUL ext -> exists b' k, mm_PathFormat b0 len (Formatted (m ++ "/" :: p ++ ext)) = Some (b', k) /\
    cstr b' = Some (slashed (full ext)) /\ k = length (full ext) /\ same_from len b0 b').
  { intros b0 ext L0 He. destruct (mm_PathFormat_spec b0 len (m ++ "/" :: p ++ ext) Hl) as (b' & k & s & E1 & E2 & E3 & _ & _ & E5 & E6);
      [lia|apply Hnf; exact He|].
    exists b', k. split; [exact E1|]. split; [rewrite E2, E5; reflexivity|]. split; [|exact E6].
    rewrite E3, E5, map_length. reflexivity. }
  destruct r as [e|].
  - destruct (Hfmt b [] eq_refl) as (b' & k & E1 & E2 & E3 & E4); [intros []|].
    rewrite E1, E2. exists b', k, []. repeat split; auto; try apply E4. intros H. destruct (H e Hr).
  - destruct (Hfmt b (S_ ".x64.so") eq_refl) as (b' & k & E1 & E2 & E3 & E4); [cbn; intuition discriminate|].
    change X64_SO with (S_ ".x64.so"). rewrite E1, E2.
    destruct (ex (slashed (full (S_ ".x64.so")))) eqn:Ex.
    + exists b', k, (S_ ".x64.so"). repeat split; auto; try apply E4. intros (e & He). destruct (Hr e He).
    + destruct (Hfmt b' (S_ ".so")) as (b2 & k2 & G1 & G2 & G3 & G4); [destruct E4; congruence|cbn; intuition discriminate|].
      change DOT_SO with (S_ ".so"). rewrite G1. exists b2, k2, (S_ ".so").
      split; [reflexivity|]. split; [exact G2|]. split; [exact G3|]. split; [|split].
      * destruct E4 as [A1 A2], G4 as [B1 B2]. split; congruence.
      * intros (e & He). destruct (Hr e He).
      * reflexivity.
Qed.
Print Assumptions C57_relative.

Example C57_relative_ex :
  (fun r => option_map (fun x => (cstr (fst x), snd x)) r)
    (GetFullPluginPath (fun _ => false) (S_ "/srv/tf") (S_ "addons\sm_mm") (repeat NUL 64) 64)
  = Some (Some (S_ "/srv/tf/addons/sm_mm.so"), 23).
Proof. vm_compute. reflexivity. Qed.

Theorem C57_absolute : forall ex mod_path plugin b len,
  absolute plugin -> 0 < len -> len <= length b -> ~ In NUL plugin -> ~ In "%" plugin ->
  exists b', GetFullPluginPath ex mod_path plugin b len = Some (b', length (firstn (len - 1) plugin)) /\
    cstr b' = Some (firstn (len - 1) plugin) /\ same_from len b b'.
Proof.
  intros ex m p b len Ha Hl Hb Hn Hpc. unfold GetFullPluginPath.
  assert (Hp : p <> []) by (destruct Ha as [(r & ->) | (c & r & ->)]; discriminate).
  destruct (is_abs_spec p Hp) as (a & -> & Hspec). rewrite (proj2 Hspec Ha).
  rewrite (printf_plain p Hpc).
  destruct (FormatArgs_spec b len p Hl Hb Hn) as (b' & k & E1 & E2 & E3 & _ & E4).
  exists b'. rewrite E1, E3. auto.
Qed.
Print Assumptions C57_absolute.

Example C57_absolute_ex :
  (fun r => option_map (fun x => (cstr (fst x), snd x)) r)
    (GetFullPluginPath (fun _ => false) (S_ "/srv/tf") (S_ "/opt/x") (repeat NUL 64) 64)
  = Some (Some (S_ "/opt/x"), 6).
Proof. vm_compute. reflexivity. Qed.

(** An absolute path is used as a format: a percent sign in it is undefined behaviour
    or changes the path.  An empty name reads the byte behind its terminator. *)
Theorem C57_format_refuted :
  GetFullPluginPath (fun _ => false) (S_ "/srv") (S_ "/opt/100%s/x") (repeat NUL 64) 64 = None /\
  (exists b k, GetFullPluginPath (fun _ => false) (S_ "/srv") (S_ "/a%%b") (repeat NUL 64) 64 = Some (b, k) /\
               cstr b = Some (S_ "/a%b")) /\
  GetFullPluginPath (fun _ => false) (S_ "/srv") [] (repeat NUL 64) 64 = None.
Proof.
  split; [vm_compute; reflexivity|]. split; [|vm_compute; reflexivity].
  eexists _, _. split; vm_compute; reflexivity.
Qed.
Print Assumptions C57_format_refuted.
