(** C50: detection of the game libraries. *)
From Coq Require Import List Bool Arith Ascii String Lia.
From Verif Require Import StrModel StrSpec StrProofs EngModel PlFileModel PlFileSpec PlFileProofs GameModel GameSpec GameProofs.
Import ListNotations.
Local Open Scope char_scope.
Local Open Scope list_scope.
Local Open Scope nat_scope.
Local Notation length := List.length.
Local Notation L_ := list_ascii_of_string.

(** The gameinfo file: the text file, or else the one of Source 2. *)
Inductive gameinfo (e : env) (dir : str) : option (bool * str) -> Prop :=
| gi_txt c : e_file e (slashed (firstn (e_max e - 1) (dir ++ L_ "/gameinfo.txt"))) = Some c -> gameinfo e dir (Some (false, c))
| gi_gi c : e_file e (slashed (firstn (e_max e - 1) (dir ++ L_ "/gameinfo.txt"))) = None ->
    e_file e (slashed (firstn (e_max e - 1) (dir ++ L_ "/gameinfo.gi"))) = Some c -> gameinfo e dir (Some (true, c))
| gi_none : e_file e (slashed (firstn (e_max e - 1) (dir ++ L_ "/gameinfo.txt"))) = None ->
    e_file e (slashed (firstn (e_max e - 1) (dir ++ L_ "/gameinfo.gi"))) = None -> gameinfo e dir None.

Lemma text_no_nul l t : text_of_line l t -> ~ In NUL t.
Proof.
  intros (s & u & (A & _) & B & (w & (sp1 & E1 & _) & (sp2 & E2 & _))) H. apply A.
  apply (uncommented_sub _ _ B). rewrite E1. apply in_or_app. right. rewrite E2. apply in_or_app. left. exact H.
Qed.

Lemma entry_ok e self src2 dir l t c : env_ok e self dir -> text_of_line l t ->
  game_entry (e_max e) src2 dir (cwd_of e) t (Some c) -> ~ In NUL c /\ length c < e_max e.
Proof.
  intros Ho Ht Hc. destruct (key_value_total t) as (k & v & K).
  pose proof (game_entry_unique _ _ _ _ _ _ _ Hc (entry_spec e src2 dir t k v K)) as E.
  destruct (negb _ && negb _); [discriminate|]. injection E as ->. apply (entry_path_ok e self); [exact Ho|].
  intros H. apply (text_no_nul l t Ht). destruct K as (sp1 & sp2 & -> & _). rewrite !in_app_iff. right. right. right.
  rewrite <- (firstn_skipn 127 v). apply in_or_app. left. exact H.
Qed.

Lemma candidates_ok e self src2 dir ls cs : env_ok e self dir -> candidates (e_max e) src2 dir (cwd_of e) ls cs ->
  forall c, In c cs -> ~ In NUL c /\ length c < e_max e.
Proof.
  intros Ho [_|pre l post rs _ _ _ H] c Hc; [destruct Hc|].
  induction H as [|l' r ls' rs' (t & Ht & Hr) H IH]; [destruct Hc|]. cbn in Hc. apply in_app_or in Hc.
  destruct Hc as [Hc|Hc]; [|exact (IH Hc)]. destruct r as [r|]; [|destruct Hc]. destruct Hc as [<- | []].
  exact (entry_ok e self src2 dir l' t r Ho Ht Hr).
Qed.

(** C50: on the first call, the paths are the candidates of gameinfo -- the libraries the
    lines behind "SearchPaths" name -- with those left out that cannot be opened, are
    the loader itself or are the same as an earlier one; the first ten of them, in order. *)
Theorem C50_detect : forall e self dir b, e_self e = Some self -> e_dir e = Some dir -> env_ok e self dir -> bufs_ok e b ->
  exists g r info, mm_DetectGameInformation e b (mkg None []) = Some (g, r) /\ gameinfo e dir info /\
    match info with
    | None => r = false /\ gpaths g = []
    | Some (src2, contents) =>
        exists lines cs ixs, fgets_pieces 254 contents lines /\ candidates (e_max e) src2 dir (cwd_of e) lines cs /\
          chosen (allowed e self) (same_path e) 10 cs ixs /\ at_ cs ixs (gpaths g) /\
          (r = true <-> gpaths g <> [])
    end.
Proof.
  intros e self dir b Hself Hdir Ho Hb. unfold mm_DetectGameInformation. cbn [detected gpaths]. rewrite Hself, Hdir.
  pose proof (eo_max _ _ _ Ho) as Hm.
  assert (Hnn : forall w, ~ In NUL (L_ w) -> ~ In NUL (dir ++ L_ w)).
  { intros w Hw Hin. apply in_app_or in Hin. destruct Hin as [Hin|Hin]; [exact (eo_dir _ _ _ Ho Hin)|exact (Hw Hin)]. }
  assert (Htxt : ~ In NUL (dir ++ L_ "/gameinfo.txt")) by (apply Hnn; cbn; intuition discriminate).
  assert (Hgi : ~ In NUL (dir ++ L_ "/gameinfo.gi")) by (apply Hnn; cbn; intuition discriminate).
  assert (Hgo : forall src2 contents, exists g r,
    match game_loop (length contents) e src2 self dir b false [] contents with
    | Some ps => Some (mkg (Some true) ps, negb (length ps =? 0)) | None => None end = Some (g, r) /\
    exists lines cs ixs, fgets_pieces 254 contents lines /\ candidates (e_max e) src2 dir (cwd_of e) lines cs /\
          chosen (allowed e self) (same_path e) 10 cs ixs /\ at_ cs ixs (gpaths g) /\
          (r = true <-> gpaths g <> [])).
  { intros src2 contents.
    destruct (loop_off e src2 self dir Ho (length contents) contents b [] Hb (le_n _)) as (cs & Hcs & ->); [cbn; unfold MAX_PATHS; lia|].
    eexists _, _. split; [reflexivity|].
    destruct (take_all_chosen e self cs [] [] [] Hm (candidates_ok e self src2 dir _ _ Ho Hcs) (chosen_nil e self _)) as (ixs & A & B); [constructor|].
    exists (pieces (length contents) 254 contents), cs, ixs. split; [apply pieces_ok; lia|]. split; [exact Hcs|].
    split; [exact A|]. split; [exact B|]. cbn [gpaths]. cbn [app] in *.
    destruct (take_all e self cs []); cbn; split; congruence. }
  destruct (mm_PathFormat_spec (b_tmp b) (e_max e) _ Hm (Nat.eq_le_incl _ _ (eq_sym (bo_tmp e b Hb))) Htxt)
    as (gb & k & gp & -> & -> & _ & _ & _ & Egp & Lgb).
  change (gp = slashed (firstn (e_max e - 1) (dir ++ L_ "/gameinfo.txt"))) in Egp.
  destruct (e_file e gp) as [c|] eqn:Ec.
  - destruct (Hgo false c) as (g & r & E & K). exists g, r, (Some (false, c)). split; [exact E|]. split; [apply gi_txt; congruence|exact K].
  - destruct (mm_PathFormat_spec gb (e_max e) (dir ++ L_ "/gameinfo.gi") Hm) as (gb2 & k2 & gp2 & -> & -> & _ & _ & _ & Egp2 & _).
    { destruct Lgb as [Lg _]. rewrite <- Lg, (bo_tmp e b Hb). lia. }
    { exact Hgi. }
    change (gp2 = slashed (firstn (e_max e - 1) (dir ++ L_ "/gameinfo.gi"))) in Egp2.
    destruct (e_file e gp2) as [c|] eqn:Ec2.
    + destruct (Hgo true c) as (g & r & E & K). exists g, r, (Some (true, c)). split; [exact E|].
      split; [apply gi_gi; congruence|exact K].
    + eexists _, _, None. split; [reflexivity|]. split; [apply gi_none; congruence|]. cbn. auto.
Qed.
Print Assumptions C50_detect.

(** in the words of the property *)
Theorem C50_paths : forall e self dir b g r, e_self e = Some self -> e_dir e = Some dir -> env_ok e self dir -> bufs_ok e b ->
  mm_DetectGameInformation e b (mkg None []) = Some (g, r) ->
  length (gpaths g) <= 10 /\
  (forall p, In p (gpaths g) -> e_file e p <> None /\ ~ same_path e self p) /\
  (forall a p m q c, gpaths g = a ++ p :: m ++ q :: c -> ~ same_path e p q).
Proof.
  intros e self dir b g r H1 H2 H3 H4 E.
  destruct (C50_detect e self dir b H1 H2 H3 H4) as (g' & r' & info & E' & _ & K). rewrite E in E'. injection E' as <- <-.
  destruct info as [[src2 contents]|].
  - destruct K as (lines & cs & ixs & _ & _ & [O I F M _] & A & _). split; [rewrite <- (at_length _ _ _ A); exact M|]. split.
    + intros p Hp. destruct (at_in _ _ _ _ A Hp) as (i & Hi & Ei). destruct (I i Hi) as (x & Ex & Hx). rewrite Ei in Ex.
      injection Ex as <-. exact Hx.
    + intros a p m q c Eg. unfold at_ in A. rewrite Eg in A.
      apply Forall2_app_inv_r in A. destruct A as (i1 & ir & _ & A & ->).
      inversion A as [|i ? ir' ? Hi A' ]; subst. apply Forall2_app_inv_r in A'. destruct A' as (i2 & ir2 & _ & A' & ->).
      inversion A' as [|j ? ir3 ? Hj A'']; subst.
      destruct (I i) as (x & Ex & Hx); [apply in_or_app; right; left; reflexivity|].
      apply (F j i q p); auto.
      * rewrite !in_app_iff. right. right. rewrite in_app_iff. right. left. reflexivity.
      * apply (O i1 i i2 j ir3). reflexivity.
      * congruence.
  - destruct K as [_ K]. rewrite K. cbn. split; [lia|]. split; [intros p []|].
    intros a p m q c Eg. apply app_cons_not_nil in Eg. destruct Eg.
Qed.
Print Assumptions C50_paths.

(** ** Candidates are determined by the file, and by its lines if none is too long *)
Lemma entries_unique e src2 dir ls : forall r1 r2, entries e src2 dir ls r1 -> entries e src2 dir ls r2 -> r1 = r2.
Proof.
  induction ls as [|l ls IH]; intros r1 r2 H1 H2; inversion H1 as [|? a ? as_ (t & Ht & Ha) A]; inversion H2 as [|? b ? bs (t' & Ht' & Hb) B]; subst;
    [reflexivity|].
  pose proof (text_unique _ _ _ Ht Ht') as <-. f_equal; [exact (game_entry_unique _ _ _ _ _ _ _ Ha Hb)|]. exact (IH _ _ A B).
Qed.

Lemma section_split (P : str -> Prop) : forall a x r b y r', a ++ x :: r = b ++ y :: r' ->
  Forall (fun l => ~ P l) a -> Forall (fun l => ~ P l) b -> P x -> P y -> r = r'.
Proof.
  induction a as [|c a IH]; intros x r b y r' E Ha Hb Hx Hy; destruct b as [|d b]; cbn in E; injection E as E1 E2.
  - exact E2.
  - subst. inversion Hb; subst. contradiction.
  - subst. inversion Ha; subst. contradiction.
  - inversion Ha; inversion Hb; subst. eapply IH; eauto.
Qed.

Theorem C50_candidates_unique : forall e src2 dir lines cs cs',
  candidates (e_max e) src2 dir (cwd_of e) lines cs -> candidates (e_max e) src2 dir (cwd_of e) lines cs' -> cs = cs'.
Proof.
  intros e src2 dir lines cs cs' [F|pre l post rs E F S1 R] [F'|pre' l' post' rs' E' F' S1' R'].
  - reflexivity.
  - exfalso. rewrite E', Forall_app in F. destruct F as [_ F]. inversion F; subst. contradiction.
  - exfalso. rewrite E, Forall_app in F'. destruct F' as [_ F']. inversion F'; subst. contradiction.
  - rewrite E in E'. pose proof (section_split is_section _ _ _ _ _ _ E' F F' S1 S1') as <-.
    f_equal. exact (entries_unique e src2 dir _ _ _ R R').
Qed.
Print Assumptions C50_candidates_unique.

Lemma text_blank t : text_of_line [NL] t -> t = [].
Proof.
  intros H. apply (text_snoc [] t) in H. destruct H as (s & u & (_ & A) & B & (w & (sp1 & E1 & _) & (sp2 & E2 & _))).
  assert (s = []) by (destruct A as [-> | (r & A)]; [reflexivity|apply app_cons_not_nil in A; destruct A]). subst s.
  assert (Hu : u = []).
  { clear E1. destruct B as [(-> & _)|(r & B & _)]; [reflexivity|]. symmetry in B. apply app_eq_nil in B. tauto. }
  rewrite Hu in E1. symmetry in E1. apply app_eq_nil in E1. destruct E1 as [_ ->]. symmetry in E2. apply app_eq_nil in E2. tauto.
Qed.

Lemma entry_blank_none e src2 dir r : game_entry (e_max e) src2 dir (cwd_of e) [] r -> r = None.
Proof.
  intros H. assert (K : key_value [] [] []).
  { exists [], []. repeat split; auto. intros (c & t & E & _). discriminate. }
  pose proof (game_entry_unique _ _ _ _ _ _ _ H (entry_spec e src2 dir [] [] [] K)) as ->. reflexivity.
Qed.

(** the pieces of a file with lines that are not too long *)
Inductive blanked : list str -> list str -> Prop :=
| bl_nil : blanked [] []
| bl_line l ls ps : blanked ls ps -> blanked (l :: ls) ((l ++ [NL]) :: ps)
| bl_full l ls ps : blanked ls ps -> blanked (l :: ls) (l :: [NL] :: ps)
| bl_last l : blanked [l] [l].

Lemma section_snoc l : is_section (l ++ [NL]) <-> is_section l.
Proof.
  destruct (text_total (l ++ [NL])) as (t & Ht). rewrite (is_section_dec _ _ Ht). apply text_snoc in Ht.
  rewrite (is_section_dec _ _ Ht). reflexivity.
Qed.
Lemma section_blank : ~ is_section [NL].
Proof. intros (t & Ht & H). apply text_blank in Ht. subst. apply same_word_length in H. discriminate H. Qed.

Lemma blanked_entries e src2 dir ls ps rs : blanked ls ps -> entries e src2 dir ps rs ->
  exists rs', entries e src2 dir ls rs' /\ somes rs' = somes rs.
Proof.
  intros H. revert rs. induction H as [|l ls ps H IH|l ls ps H IH|l]; intros rs R.
  - inversion R; subst. exists []. split; [constructor|reflexivity].
  - inversion R as [|? r ? rs0 (t & Ht & Hr) R0]; subst. destruct (IH rs0 R0) as (rs' & A & B).
    exists (r :: rs'). split; [constructor; [exists t; split; [apply text_snoc; exact Ht|exact Hr]|exact A]|].
    unfold somes in *. cbn [flat_map app]. rewrite B. reflexivity.
  - inversion R as [|? r ? rs0 (t & Ht & Hr) R0]; subst. inversion R0 as [|? r1 ? rs1 (t1 & Ht1 & Hr1) R1]; subst.
    apply text_blank in Ht1. subst t1. apply entry_blank_none in Hr1. subst r1.
    destruct (IH rs1 R1) as (rs' & A & B). exists (r :: rs'). split; [constructor; [exists t; auto|exact A]|].
    unfold somes in *. cbn [flat_map app]. rewrite B. reflexivity.
  - exists rs. auto.
Qed.

Lemma blanked_candidates e src2 dir ls ps cs : blanked ls ps ->
  candidates (e_max e) src2 dir (cwd_of e) ps cs -> candidates (e_max e) src2 dir (cwd_of e) ls cs.
Proof.
  intros H C. destruct C as [F|pre l0 post rs E F S1 R].
  - apply ca_none. induction H as [|l ls ps H IH|l ls ps H IH|l]; auto.
    + inversion F; subst. constructor; [rewrite <- section_snoc; assumption|auto].
    + inversion F as [|? ? F0 F1]; subst. inversion F1; subst. constructor; auto.
  - assert (Hcons : forall l ls', candidates (e_max e) src2 dir (cwd_of e) ls' (somes rs) -> ~ is_section l ->
                                  candidates (e_max e) src2 dir (cwd_of e) (l :: ls') (somes rs)).
    { intros l ls' [F'|pre' l' post' rs' E' F' S' R'] Hl.
      - apply ca_none. constructor; assumption.
      - rewrite E'. apply (ca_some _ _ _ _ _ (l :: pre') l' post' rs'); auto. }
    revert pre E F. induction H as [|l ls ps H IH|l ls ps H IH|l]; intros pre E F.
    + apply app_cons_not_nil in E. destruct E.
    + destruct pre as [|p pre]; cbn in E; injection E as E1 E2; subst.
      * destruct (blanked_entries e src2 dir _ _ _ H R) as (rs' & A & B). rewrite <- B.
        apply (ca_some _ _ _ _ _ [] l ls rs'); [reflexivity|constructor|apply section_snoc; exact S1|exact A].
      * inversion F; subst. apply Hcons; [apply (IH pre); auto|rewrite <- section_snoc; assumption].
    + destruct pre as [|p pre]; cbn in E; injection E as E1 E2; subst.
      * inversion R as [|? r1 ? rs1 (t1 & Ht1 & Hr1) R1]; subst. apply text_blank in Ht1. subst t1.
        apply entry_blank_none in Hr1. subst r1.
        destruct (blanked_entries e src2 dir _ _ _ H R1) as (rs' & A & B). change (somes (None :: rs1)) with (somes rs1). rewrite <- B.
        apply (ca_some _ _ _ _ _ [] l0 ls rs'); [reflexivity|constructor|exact S1|exact A].
      * inversion F as [|? ? Fp F0]; subst. apply Hcons; [|exact Fp].
        destruct pre as [|q pre]; cbn in E2; injection E2 as E3 E4; subst; [destruct (section_blank S1)|].
        inversion F0; subst. apply (IH pre); auto.
    + destruct pre as [|p pre]; cbn in E; injection E as E1 E2; subst.
      * apply (ca_some _ _ _ _ _ [] l0 [] rs); [reflexivity|constructor|exact S1|exact R].
      * apply app_cons_not_nil in E2. destruct E2.
Qed.

Lemma pieces_det n s ps : 0 < n -> fgets_pieces n s ps -> forall fuel, length s <= fuel -> ps = pieces fuel n s.
Proof.
  intros Hn H. induction H as [|p r ps P1 P2 P3 P4 H IH]; intros fuel Hf; [destruct fuel; reflexivity|].
  destruct p as [|c p]; [congruence|]. cbn [app] in *. destruct fuel as [|fuel]; [cbn in Hf; lia|].
  assert (E : take_line n (c :: p ++ r) = (c :: p, r)).
  { change (c :: p ++ r) with ((c :: p) ++ r). remember (c :: p) as q.
    destruct (in_dec ascii_dec NL q) as [Hin|Hnin].
    - apply in_split in Hin. destruct Hin as (a & b & Eq). destruct b as [|d b]; [|destruct (P3 a d b Eq)].
      assert (Ha : ~ In NL a).
      { intros Ha. apply in_split in Ha. destruct Ha as (a1 & a2 & ->). destruct a2 as [|d a2].
        - apply (P3 a1 NL []). rewrite Eq, <- app_assoc. reflexivity.
        - apply (P3 a1 d (a2 ++ [NL])). rewrite Eq, <- app_assoc. reflexivity. }
      rewrite Eq, <- app_assoc. apply take_line_short; [exact Ha|]. rewrite Eq, app_length in P2. cbn in P2. lia.
    - destruct (Nat.eq_dec (length q) n) as [E|E]; [rewrite <- E; apply take_line_full; exact Hnin|].
      destruct r as [|x r]; [rewrite app_nil_r; apply take_line_end; auto|].
      destruct P4 as (a & Ea); [discriminate|lia|]. exfalso. apply Hnin. rewrite Ea. apply in_or_app. right; left; reflexivity. }
  cbn [pieces]. rewrite E. f_equal. apply IH. cbn in Hf. rewrite app_length in Hf. lia.
Qed.

Lemma pieces_blanked n ls : forall last fuel, 0 < n -> Forall (fun l => ~ In NL l /\ length l <= n) ls ->
  ~ In NL last -> length last <= n -> length (file_of ls last) <= fuel ->
  blanked (all_lines ls last) (pieces fuel n (file_of ls last)).
Proof.
  induction ls as [|l ls IH]; intros last fuel Hn Hls Hlast Hll Hf.
  - cbn in *. destruct last as [|c last]; [destruct fuel; constructor|].
    destruct fuel as [|fuel]; [cbn in Hf; lia|]. cbn [pieces]. rewrite take_line_end by assumption.
    destruct fuel; cbn; constructor.
  - inversion Hls as [|? ? (Hl1 & Hl2) Hls']; subst.
    assert (Ef : file_of (l :: ls) last = l ++ NL :: file_of ls last).
    { unfold file_of. cbn. rewrite <- !app_assoc. reflexivity. }
    rewrite Ef in *. rewrite app_length in Hf. cbn [length] in Hf. change (all_lines (l :: ls) last) with (l :: all_lines ls last).
    destruct fuel as [|fuel]; [lia|].
    destruct (Nat.eq_dec (length l) n) as [E|E].
    + assert (Hc : exists c l', l = c :: l') by (destruct l as [|c l']; [cbn in E; lia|eauto]).
      destruct Hc as (c & l' & Ec).
      assert (Ep : pieces (S fuel) n (l ++ NL :: file_of ls last) = l :: pieces fuel n (NL :: file_of ls last)).
      { pose proof (pieces_step fuel n c (l' ++ NL :: file_of ls last)) as K.
        change (c :: l' ++ NL :: file_of ls last) with ((c :: l') ++ NL :: file_of ls last) in K. rewrite <- Ec in K.
        pose proof (take_line_full l (NL :: file_of ls last) Hl1) as Tl. rewrite E in Tl. rewrite Tl in K. exact K. }
      rewrite Ep. destruct fuel as [|fuel]; [subst l; cbn in *; lia|].
      pose proof (pieces_step fuel n NL (file_of ls last)) as K.
      rewrite (take_line_short [] (file_of ls last) n (fun x => x) Hn : take_line n (NL :: file_of ls last) = _) in K. rewrite K. cbn [app].
      apply bl_full. apply IH; auto. subst l. cbn in *. lia.
    + assert (Ep : pieces (S fuel) n (l ++ NL :: file_of ls last) = (l ++ [NL]) :: pieces fuel n (file_of ls last)).
      { destruct l as [|c l].
        - pose proof (pieces_step fuel n NL (file_of ls last)) as K.
          rewrite (take_line_short [] (file_of ls last) n (fun x => x) Hn : take_line n (NL :: file_of ls last) = _) in K. exact K.
        - pose proof (pieces_step fuel n c (l ++ NL :: file_of ls last)) as K.
          change (c :: l ++ NL :: file_of ls last) with ((c :: l) ++ NL :: file_of ls last) in K.
          rewrite take_line_short in K by (auto; lia). exact K. }
      rewrite Ep. apply bl_line. apply IH; auto. lia.
Qed.

Theorem C50_lines : forall e src2 dir ls last lines cs,
  Forall (fun l => ~ In "010" l /\ length l <= 254) ls -> ~ In "010" last -> length last <= 254 ->
  fgets_pieces 254 (file_of ls last) lines -> candidates (e_max e) src2 dir (cwd_of e) lines cs ->
  candidates (e_max e) src2 dir (cwd_of e) (all_lines ls last) cs.
Proof.
  intros e src2 dir ls last lines cs H1 H2 H3 Hp Hc.
  rewrite (pieces_det 254 _ _ (Nat.lt_0_succ _) Hp _ (le_n _)) in Hc.
  refine (blanked_candidates e src2 dir _ _ cs _ Hc). apply pieces_blanked; auto. lia.
Qed.
Print Assumptions C50_lines.

(** Later calls repeat the first answer, unless no path was found. *)
Theorem C50_again : forall e b e' b' g r, mm_DetectGameInformation e b (mkg None []) = Some (g, r) ->
  mm_DetectGameInformation e' b' g = Some (g, match detected g with Some x => x | None => r end) /\
  (gpaths g <> [] -> r = true /\ mm_DetectGameInformation e' b' g = Some (g, true)).
Proof.
  intros e b e' b' g r H.
  assert (K : exists x, detected g = Some x /\ (gpaths g <> [] -> x = true /\ r = true)).
  { unfold mm_DetectGameInformation in H. cbn [detected gpaths] in H.
    assert (F : forall x y, Some (mkg (Some false) [], false) = Some (x, y) ->
      exists z, detected x = Some z /\ (gpaths x <> [] -> z = true /\ y = true)).
    { intros x y [= <- <-]. exists false. cbn. split; [reflexivity|congruence]. }
    assert (G : forall o x y, match o with Some ps => Some (mkg (Some true) ps, negb (length ps =? 0)) | None => None end = Some (x, y) ->
      exists z, detected x = Some z /\ (gpaths x <> [] -> z = true /\ y = true)).
    { intros [ps|] x y; [|discriminate]. intros [= <- <-]. exists true. cbn. split; [reflexivity|].
      destruct ps; [congruence|auto]. }
    destruct (e_self e) as [self|]; [|exact (F _ _ H)]. destruct (e_dir e) as [dir|]; [|exact (F _ _ H)].
    destruct (mm_PathFormat _ _ _) as [[gb k]|]; [|discriminate]. destruct (cstr gb) as [gp|]; [|discriminate].
    destruct (e_file e gp); [exact (G _ _ _ H)|].
    destruct (mm_PathFormat _ _ _) as [[gb2 k2]|]; [|discriminate]. destruct (cstr gb2) as [gp2|]; [|discriminate].
    destruct (e_file e gp2); [exact (G _ _ _ H)|exact (F _ _ H)]. }
  destruct K as (x & Ex & Hx). unfold mm_DetectGameInformation. rewrite Ex. split; [reflexivity|].
  intros Hp. destruct (Hx Hp) as [-> ->]. auto.
Qed.
Print Assumptions C50_again.

(** ** A concrete system *)
Fixpoint find_file (l : list (str * str)) (p : str) : option str :=
  match l with [] => None | (q, c) :: l' => if str_eqb p q then Some c else find_file l' p end.
Definition sys (files : list (str * str)) : env :=
  mkenv 300 (Some (L_ "/srv/cstrike/addons/metamod/bin/linux64/server.so")) (Some (L_ "/srv/cstrike")) (Some (L_ "/srv"))
    (fun _ => None) (find_file files).
Definition bufs0 : bufs := mkbufs (repeat NUL 255) (repeat NUL 128) (repeat NUL 128) (repeat NUL 300).
Definition txt (ls : list string) : str := file_of (map L_ ls) [].
Definition TXT : str := L_ "/srv/cstrike/gameinfo.txt".
Definition detect (files : list (str * str)) : option (gst * bool) := mm_DetectGameInformation (sys files) bufs0 (mkg None []).

Lemma sys_ok files : env_ok (sys files) (L_ "/srv/cstrike/addons/metamod/bin/linux64/server.so") (L_ "/srv/cstrike").
Proof.
  constructor; cbn [sys e_max e_cwd]; [lia|cbn; intuition discriminate|].
  intros d [= <-]. cbn. intuition discriminate.
Qed.
Lemma bufs0_ok files : bufs_ok (sys files) bufs0.
Proof. constructor; reflexivity. Qed.

Definition INFO : str := txt ["GameInfo"; "{"; "  Game ignored"; "  SearchPaths // here"; "  {";
   "    Game |gameinfo_path|addons/metamod"; "    game hl2"; "    GameBin |gameinfo_path|.bin"; "    Game cstrike";
   "    Game |gameinfo_path|."; "  }"; "}"]%string.
Definition FILES : list (str * str) :=
  [(TXT, INFO); (L_ "/srv/cstrike/addons/metamod/bin/linux64/server.so", []); (L_ "/srv/hl2/bin/linux64/server.so", []);
   (L_ "/srv/cstrike/bin/linux64/server.so", [])].

Example C50_ex : match detect FILES with
  | Some (g, r) => gpaths g = [L_ "/srv/hl2/bin/linux64/server.so"; L_ "/srv/cstrike/bin/linux64/server.so"] /\ r = true
  | None => False
  end.
Proof. vm_compute. auto. Qed.

(** ** What does not hold *)
(** Entries of later sections count as well: the end of the section is not noticed. *)
Theorem C50_section_refuted : exists files,
  find_file files TXT = Some (txt ["SearchPaths"; "{"; "}"; "Other"; "{"; "Game cstrike"; "}"]%string) /\
  exists g, detect files = Some (g, true) /\ gpaths g = [L_ "/srv/cstrike/bin/linux64/server.so"].
Proof.
  exists [(TXT, txt ["SearchPaths"; "{"; "}"; "Other"; "{"; "Game cstrike"; "}"]%string); (L_ "/srv/cstrike/bin/linux64/server.so", [])].
  split; [vm_compute; reflexivity|]. eexists. split; [vm_compute; reflexivity|]. vm_compute. reflexivity.
Qed.
Print Assumptions C50_section_refuted.

(** If no library is found the first call says so, the second one reports success. *)
Theorem C50_second_call_refuted : exists g,
  detect [(TXT, txt ["SearchPaths"%string])] = Some (g, false) /\ gpaths g = [] /\
  forall e b, mm_DetectGameInformation e b g = Some (g, true).
Proof. eexists. split; [vm_compute; reflexivity|]. split; [reflexivity|]. intros e b. reflexivity. Qed.
Print Assumptions C50_second_call_refuted.

(** Quotes, which the format allows around keys and values, are taken literally. *)
Theorem C50_quotes_refuted : forall line, In line [L_ """Game"" cstrike"; L_ "Game ""cstrike"""] ->
  exists g, detect [(TXT, file_of [L_ "SearchPaths"; line] []); (L_ "/srv/cstrike/bin/linux64/server.so", [])] = Some (g, false) /\ gpaths g = [].
Proof.
  intros line [<- | [<- | []]]; eexists; (split; [vm_compute; reflexivity|]); reflexivity.
Qed.
Print Assumptions C50_quotes_refuted.

(** A directory with a long name is cut to 127 characters and not found. *)
Theorem C50_long_refuted : exists d, length d = 130 /\
  exists g, detect [(TXT, file_of [L_ "SearchPaths"; L_ "Game " ++ d] []); (L_ "/srv/" ++ d ++ L_ "/bin/linux64/server.so", [])] = Some (g, false) /\ gpaths g = [].
Proof.
  exists (repeat "a" 130). split; [reflexivity|]. eexists. split; [vm_compute; reflexivity|]. reflexivity.
Qed.
Print Assumptions C50_long_refuted.
