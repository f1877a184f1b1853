From Coq Require Import List Bool Arith Ascii String Lia.
From Verif Require Import StrModel StrSpec StrProofs EngModel PlFileModel PlFileSpec PlFileProofs GameModel GameSpec.
Import ListNotations.
Local Open Scope char_scope.
Local Open Scope list_scope.
Local Open Scope nat_scope.
Local Notation length := List.length.
Local Notation L_ := list_ascii_of_string.

(** ** Words *)
Lemma tolower_same c d : tolower c = tolower d <-> same_letter c d.
Proof.
  split.
  - unfold tolower.
    destruct ((65 <=? nat_of_ascii c) && (nat_of_ascii c <=? 90)) eqn:Ec;
      destruct ((65 <=? nat_of_ascii d) && (nat_of_ascii d <=? 90)) eqn:Ed; intros E.
    + apply andb_true_iff in Ec. apply andb_true_iff in Ed. destruct Ec as [C1 C2], Ed as [D1 D2].
      apply Nat.leb_le in C1, C2, D1, D2.
      apply (f_equal nat_of_ascii) in E. rewrite !nat_ascii_embedding in E by lia.
      assert (E' : nat_of_ascii c = nat_of_ascii d) by lia. apply (f_equal ascii_of_nat) in E'.
      rewrite !ascii_nat_embedding in E'. subst. constructor.
    + apply andb_true_iff in Ec. destruct Ec as [C1 C2]. apply Nat.leb_le in C1, C2. subst d.
      rewrite <- (ascii_nat_embedding c) at 1. apply sl_up. lia.
    + apply andb_true_iff in Ed. destruct Ed as [D1 D2]. apply Nat.leb_le in D1, D2. subst c.
      rewrite <- (ascii_nat_embedding d) at 2. apply sl_down. lia.
    + subst. constructor.
  - assert (K : forall n, 65 <= n <= 90 -> tolower (ascii_of_nat n) = ascii_of_nat (n + 32) /\
                                          tolower (ascii_of_nat (n + 32)) = ascii_of_nat (n + 32)).
    { intros n H. unfold tolower. rewrite !nat_ascii_embedding by lia.
      rewrite (proj2 (Nat.leb_le 65 n)), (proj2 (Nat.leb_le n 90)) by lia.
      rewrite (proj2 (Nat.leb_gt (n + 32) 90)) by lia. rewrite andb_false_r. auto. }
    intros H. destruct H as [c|n H|n H]; [reflexivity| |]; destruct (K n H); congruence.
Qed.

Lemma stricmp_same a b : stricmp_eq a b = true <-> same_word a b.
Proof.
  unfold stricmp_eq. rewrite str_eqb_spec. unfold same_word. revert b.
  induction a as [|x a IH]; intros [|y b]; cbn [map].
  - split; [constructor|reflexivity].
  - split; [discriminate|intros H; inversion H].
  - split; [discriminate|intros H; inversion H].
  - split.
    + intros [= E1 E2]. constructor; [apply tolower_same; exact E1|apply IH; exact E2].
    + intros H. inversion H as [|? ? ? ? H1 H2]; subst. f_equal; [apply tolower_same; exact H1|apply IH; exact H2].
Qed.
Lemma stricmp_false a b : stricmp_eq a b = false <-> ~ same_word a b.
Proof. rewrite <- stricmp_same. destruct (stricmp_eq a b); split; congruence. Qed.

Lemma same_word_length a b : same_word a b -> length a = length b.
Proof. intros H. induction H; cbn; congruence. Qed.

Lemma same_word_cut n k w : length w < n -> same_word (firstn n k) w <-> same_word k w.
Proof.
  intros Hn. destruct (Nat.le_gt_cases (length k) n) as [Hk|Hk]; [rewrite firstn_all2 by exact Hk; tauto|].
  split; intros H; apply same_word_length in H; [rewrite firstn_length in H|]; lia.
Qed.

(** ** Texts of lines *)
Lemma upto_nul_unique p s t : upto_nul p s -> upto_nul p t -> s = t.
Proof.
  intros (H1 & [-> | (r & ->)]) (H2 & [E | (r' & E)]).
  - auto.
  - rewrite E in H1. destruct H1. apply in_or_app. right; left; reflexivity.
  - rewrite E in H2. destruct H2. apply in_or_app. right; left; reflexivity.
  - destruct (split_first (fun c => c = NUL) _ _ _ _ _ _ E) as (K & _ & _); auto; intros c Hc Hx; subst; contradiction.
Qed.

Lemma text_unique l t1 t2 : text_of_line l t1 -> text_of_line l t2 -> t1 = t2.
Proof.
  intros (s1 & u1 & A1 & B1 & C1) (s2 & u2 & A2 & B2 & C2).
  pose proof (upto_nul_unique _ _ _ A1 A2) as <-. pose proof (uncommented_unique _ _ _ B1 B2) as <-.
  exact (trimmed_unique _ _ _ C1 C2).
Qed.

Lemma uncommented_total s : exists t, uncommented s t.
Proof.
  assert (K : (forall a b, s <> a ++ slashes ++ b) \/
              exists t r, s = t ++ slashes ++ r /\ forall a b, s = a ++ slashes ++ b -> length t <= length a).
  { induction s as [|c s IH].
    - left. intros a b E. symmetry in E. apply app_eq_nil in E. destruct E as [_ E]. discriminate.
    - destruct (list_eq_dec ascii_dec (firstn 2 (c :: s)) slashes) as [E|E].
      + right. exists [], (skipn 2 (c :: s)). split; [rewrite <- E; symmetry; apply (firstn_skipn 2)|].
        intros a b _. cbn. lia.
      + destruct IH as [IH|(t & r & E1 & E2)].
        * left. intros [|x a] b Ex.
          { apply E. rewrite Ex. reflexivity. }
          injection Ex as _ Ex. exact (IH _ _ Ex).
        * right. exists (c :: t), r. split; [rewrite E1; reflexivity|].
          intros [|x a] b Ex.
          { exfalso. apply E. rewrite Ex. reflexivity. }
          injection Ex as _ Ex. specialize (E2 _ _ Ex). cbn. lia. }
  destruct K as [K|(t & r & K1 & K2)]; [exists s; left; auto|exists t; right; eauto].
Qed.

Lemma text_total l : exists t, text_of_line l t.
Proof.
  destruct (upto_nul_total l) as (s & Hs). destruct (uncommented_total s) as (u & Hu).
  eexists. exists s, u. split; [exact Hs|]. split; [exact Hu|apply trimmed_fun].
Qed.

Lemma text_snoc l t : text_of_line (l ++ [NL]) t -> text_of_line l t.
Proof.
  intros (s & u & A & B & C). destruct (upto_nul_snoc l s A) as [(s' & -> & A')|A']; [|exists s, u; auto].
  destruct B as [(E & B)|(rest & E & B)].
  - subst u. exists s', s'. split; [exact A'|]. split.
    + left. split; [reflexivity|]. intros a b Eab. apply (B a (b ++ [NL])). rewrite Eab, <- !app_assoc. reflexivity.
    + apply (trimmed_snoc s' NL t NL_white C).
  - exists s', u. split; [exact A'|]. split; [|exact C].
    destruct rest as [|x rest] using rev_ind.
    + exfalso. cbn in E. change (s' ++ [NL] = u ++ (["/"] ++ ["/"])) in E. rewrite app_assoc in E.
      apply app_inj_tail in E. destruct E as [_ E]. discriminate E.
    + rewrite !app_assoc in E. apply app_inj_tail in E. destruct E as [E _]. rewrite <- app_assoc in E.
      right. exists rest. split; [exact E|]. intros a b Eab. apply (B a (b ++ [NL])).
      rewrite Eab, <- !app_assoc. reflexivity.
Qed.

(** ** Entries *)
Lemma key_value_total s : exists k v, key_value s k v.
Proof.
  destruct (word_and_rest (skip_space s)) as [w r] eqn:E. exists w, (drop_space r).
  destruct (word_and_rest_spec _ _ _ E) as (E1 & E2 & E3).
  destruct (drop_space_spec s) as (sp1 & F1 & F2 & F3). destruct (drop_space_spec r) as (sp2 & G1 & G2 & G3).
  exists sp1, sp2. rewrite skip_space_drop in E1. rewrite E1 in F1, F3. rewrite G1 in F1.
  split; [exact F1|]. split; [exact F2|]. split; [exact G2|]. split; [exact E2|]. split; [exact G3|].
  split.
  - intros ->. cbn in F3. destruct E3 as [-> | E3]; [|contradiction].
    symmetry in G1. apply app_eq_nil in G1. exact G1.
  - intros ->. cbn in G1. destruct E3 as [-> | E3]; [cbn; reflexivity|]. rewrite G1 in E3. contradiction.
Qed.

Lemma after_prefix_spec p : forall s, match after_prefix p s with
  | Some r => s = p ++ r
  | None => forall r, s <> p ++ r
  end.
Proof.
  induction p as [|a p IH]; intros s; cbn [after_prefix]; [reflexivity|].
  destruct s as [|b s]; [intros r; discriminate|].
  destruct (Ascii.eqb_spec a b) as [<- | Hab].
  - specialize (IH s). destruct (after_prefix p s) as [r|]; [rewrite IH; reflexivity|].
    intros r E. injection E as E. exact (IH r E).
  - intros r E. injection E as E1 E2. congruence.
Qed.

Definition cwd_of (e : env) : str := match e_cwd e with Some d => d | None => [] end.

Lemma base_of_place e dir v base rest : base_of e dir v = (base, rest) -> place dir (cwd_of e) v base rest.
Proof.
  unfold base_of. pose proof (after_prefix_spec GAMEINFO v) as H. destruct (after_prefix GAMEINFO v) as [p|].
  - destruct p as [|c p].
    + intros [= <- <-]. apply pl_here; [exact H|discriminate].
    + destruct (Ascii.eqb_spec c ".") as [-> | Hc]; intros [= <- <-].
      * apply pl_dot. rewrite H. reflexivity.
      * apply pl_here; [exact H|]. intros r' E. injection E as E _. congruence.
  - intros [= <- <-]. apply pl_cwd. exact H.
Qed.

Lemma place_unique dir cwd v b1 r1 b2 r2 : place dir cwd v b1 r1 -> place dir cwd v b2 r2 -> b1 = b2 /\ r1 = r2.
Proof.
  intros H1 H2. destruct H1 as [r1 E1|r1 E1 F1|F1], H2 as [r2 E2|r2 E2 F2|F2]; subst; auto.
  - cbn in E2. injection E2 as ->. auto.
  - exfalso. cbn in E2. injection E2 as <-. exact (F2 _ eq_refl).
  - exfalso. exact (F2 ("." :: r1) eq_refl).
  - exfalso. cbn in E2. injection E2 as ->. exact (F1 _ eq_refl).
  - cbn in E2. injection E2 as ->. auto.
  - exfalso. exact (F2 _ eq_refl).
  - exfalso. exact (F1 ("." :: r2) eq_refl).
  - exfalso. exact (F1 _ eq_refl).
Qed.

Lemma server_path_library src2 base rest gb : library src2 base rest gb (server_path src2 gb base rest).
Proof.
  unfold server_path. destruct src2, gb.
  - apply li_bin2. reflexivity.
  - destruct rest as [|c rest]; [apply li_here2; reflexivity|apply (li_game2 true base (c :: rest)); [reflexivity|discriminate]].
  - apply li_bin1. reflexivity.
  - destruct rest as [|c rest]; [apply li_here1; reflexivity|apply (li_game1 false base (c :: rest)); [reflexivity|discriminate]].
Qed.

Lemma library_unique src2 base rest gb p1 p2 : library src2 base rest gb p1 -> library src2 base rest gb p2 -> p1 = p2.
Proof. intros H1 H2. destruct H1; inversion H2; subst; congruence. Qed.

Definition entry_path (e : env) (src2 : bool) (dir : str) (gb : bool) (val : str) : str :=
  let (lptr, ptr) := base_of e dir val in slashed (firstn (e_max e - 1) (server_path src2 gb lptr ptr)).

Lemma entry_spec e src2 dir t k v : key_value t k v ->
  game_entry (e_max e) src2 dir (cwd_of e) t
    (if negb (stricmp_eq k (L_ "Game")) && negb (stricmp_eq k (L_ "GameBin")) then None
     else Some (entry_path e src2 dir (stricmp_eq k (L_ "GameBin")) (firstn 127 v))).
Proof.
  intros Hk. unfold entry_path. destruct (base_of e dir (firstn 127 v)) as [base rest] eqn:Eb.
  apply base_of_place in Eb.
  destruct (stricmp_eq k (L_ "Game")) eqn:E1; cbn [negb andb].
  - apply stricmp_same in E1. destruct (stricmp_eq k (L_ "GameBin")) eqn:E2.
    + apply stricmp_same in E2. apply same_word_length in E1. apply same_word_length in E2. rewrite E1 in E2. discriminate E2.
    + apply (ge_game _ _ _ _ _ k v base rest); auto using server_path_library.
  - apply stricmp_false in E1. destruct (stricmp_eq k (L_ "GameBin")) eqn:E2; cbn [negb].
    + apply stricmp_same in E2. apply (ge_bin _ _ _ _ _ k v base rest); auto using server_path_library.
    + apply stricmp_false in E2. apply (ge_other _ _ _ _ _ k v); auto.
Qed.

Lemma game_entry_unique max src2 dir cwd t r1 r2 :
  game_entry max src2 dir cwd t r1 -> game_entry max src2 dir cwd t r2 -> r1 = r2.
Proof.
  assert (Hdiff : forall k, same_word k (L_ "Game") -> same_word k (L_ "GameBin") -> False).
  { intros k A B. apply same_word_length in A. apply same_word_length in B. rewrite A in B. discriminate B. }
  intros H1 H2.
  destruct H1 as [k v K W1 W2|k v b r p K W P Li|k v b r p K W P Li];
    destruct H2 as [k' v' K' W1' W2'|k' v' b' r' p' K' W' P' Li'|k' v' b' r' p' K' W' P' Li'];
    destruct (key_value_unique _ _ _ _ _ K K'); subst k' v'; try tauto; try (exfalso; eauto; fail);
    destruct (place_unique _ _ _ _ _ _ _ P P'); subst b' r'; rewrite (library_unique _ _ _ _ _ _ Li Li'); reflexivity.
Qed.

Lemma entry_total e src2 dir t : exists r, game_entry (e_max e) src2 dir (cwd_of e) t r.
Proof. destruct (key_value_total t) as (k & v & K). eexists. apply entry_spec. exact K. Qed.

(** ** One line *)
Record env_ok (e : env) (self dir : str) : Prop := {
  eo_max : 0 < e_max e; eo_dir : ~ In NUL dir; eo_cwd : forall d, e_cwd e = Some d -> ~ In NUL d
}.
Record bufs_ok (e : env) (b : bufs) : Prop := {
  bo_line : length (b_line b) = 255; bo_key : length (b_key b) = 128; bo_val : length (b_val b) = 128;
  bo_tmp : length (b_tmp b) = e_max e
}.

Definition add1 (e : env) (self c : str) (paths : list str) : list str :=
  match add_path e self c paths with Some ps => ps | None => paths end.

Lemma slashed_not_nul s : ~ In NUL s -> ~ In NUL (slashed s).
Proof.
  intros H Hin. apply in_map_iff in Hin. destruct Hin as (c & E & Hc).
  destruct (Ascii.eqb c "\"); [discriminate E|subst; contradiction].
Qed.

Lemma PathCmp_same e p q : exists r, mm_PathCmp (e_real e) p q = Some r /\ (r = true <-> same_path e p q).
Proof. apply UTIL_PathCmp_spec. Qed.

Lemma known_spec e paths t : exists r, known e paths t = Some r /\ (r = true <-> exists p, In p paths /\ same_path e p t).
Proof.
  induction paths as [|p ps (r & E & IH)]; cbn [known].
  - exists false. split; [reflexivity|]. split; [discriminate|intros (p & [] & _)].
  - destruct (PathCmp_same e p t) as (x & -> & Hx). destruct x.
    + exists true. split; [reflexivity|]. split; [|reflexivity]. intros _. exists p. split; [left; reflexivity|apply Hx; reflexivity].
    + exists r. split; [exact E|]. rewrite IH. split.
      * intros (q & Hq & Hs). exists q. split; [right; exact Hq|exact Hs].
      * intros (q & [<- | Hq] & Hs); [apply Hx in Hs; discriminate|]. exists q. auto.
Qed.

Lemma add_path_spec e self c paths : 0 < e_max e -> ~ In NUL c -> length c < e_max e -> length paths < MAX_PATHS ->
  exists ps, add_path e self c paths = Some ps /\
    ((ps = paths /\ (~ allowed e self c \/ exists p, In p paths /\ same_path e p c)) \/
     (ps = paths ++ [c] /\ allowed e self c /\ forall p, In p paths -> ~ same_path e p c)).
Proof.
  intros Hm Hn Hl Hp. unfold add_path. destruct (PathCmp_same e self c) as (x & -> & Hx). destruct x.
  { exists paths. split; [reflexivity|]. left. split; [reflexivity|]. left. intros (_ & K). apply K, Hx. reflexivity. }
  destruct (e_file e c) as [f|] eqn:Ef.
  2:{ exists paths. split; [reflexivity|]. left. split; [reflexivity|]. left. intros (K & _). congruence. }
  destruct (known_spec e paths c) as (k & -> & Hk). destruct k.
  { exists paths. split; [reflexivity|]. left. split; [reflexivity|]. right. apply Hk. reflexivity. }
  apply Nat.ltb_lt in Hp. rewrite Hp.
  destruct (FormatArgs_spec (repeat NUL (e_max e)) (e_max e) c Hm) as (b' & k & -> & Hc & _); [rewrite repeat_length; lia|exact Hn|].
  rewrite firstn_all2 in Hc by lia. rewrite Hc. exists (paths ++ [c]). split; [reflexivity|]. right. split; [reflexivity|].
  split.
  - split; [congruence|]. rewrite <- Hx. discriminate.
  - intros p Hin Hs. assert (false = true) by (apply Hk; eauto). discriminate.
Qed.

Lemma uncommented_sub s t : uncommented s t -> forall c, In c t -> In c s.
Proof. intros [(-> & _)|(r & -> & _)] c Hc; [exact Hc|apply in_or_app; left; exact Hc]. Qed.

Lemma base_not_nul e self dir v base rest : env_ok e self dir -> ~ In NUL v -> base_of e dir v = (base, rest) ->
  ~ In NUL base /\ ~ In NUL rest.
Proof.
  intros [_ Hd Hc] Hv E. apply base_of_place in E. destruct E as [r E|r E _|_].
  - split; [exact Hd|]. intros H. apply Hv. rewrite E. apply in_or_app. right. exact H.
  - split; [exact Hd|]. intros H. apply Hv. rewrite E. apply in_or_app. right. exact H.
  - split; [|exact Hv]. unfold cwd_of. destruct (e_cwd e) as [d|] eqn:E; [apply Hc; reflexivity|intros []].
Qed.

Lemma library_not_nul src2 base rest gb p : library src2 base rest gb p -> ~ In NUL base -> ~ In NUL rest -> ~ In NUL p.
Proof.
  assert (K : forall s, forallb (fun c => negb (Ascii.eqb c NUL)) (L_ s) = true -> ~ In NUL (L_ s)).
  { intros s H Hin. rewrite forallb_forall in H. specialize (H _ Hin). rewrite Ascii.eqb_refl in H. discriminate. }
  intros H H1 H2. destruct H; rewrite !in_app_iff; intros Hin;
    repeat match goal with [ Hx : _ \/ _ |- _ ] => destruct Hx end; auto;
    match goal with [ Hx : In NUL (L_ ?s) |- _ ] => apply (K s) in Hx; [contradiction|reflexivity] end.
Qed.

Lemma entry_path_ok e self src2 dir gb v : env_ok e self dir -> ~ In NUL v ->
  ~ In NUL (entry_path e src2 dir gb v) /\ length (entry_path e src2 dir gb v) < e_max e.
Proof.
  intros Ho Hv. unfold entry_path. destruct (base_of e dir v) as [base rest] eqn:E.
  destruct (base_not_nul e self dir v base rest Ho Hv E) as [H1 H2]. split.
  - apply slashed_not_nul. intros H. apply (library_not_nul src2 base rest gb _ (server_path_library src2 base rest gb) H1 H2).
    rewrite <- (firstn_skipn (e_max e - 1)). apply in_or_app. left. exact H.
  - unfold slashed. rewrite map_length, firstn_length. pose proof (eo_max _ _ _ Ho). lia.
Qed.

Lemma line_step e src2 self dir b p t r search paths : env_ok e self dir -> bufs_ok e b -> length p <= 254 ->
  text_of_line p t -> game_entry (e_max e) src2 dir (cwd_of e) t r -> length paths < MAX_PATHS ->
  exists l b', store_str (b_line b) p = Some l /\ bufs_ok e b' /\
    let search' := search || stricmp_eq t (L_ "SearchPaths") in
    game_line e src2 self dir (mkbufs l (b_key b) (b_val b) (b_tmp b)) search paths =
      Some (b', search', if search' then match r with Some c => add1 e self c paths | None => paths end else paths) /\
    (forall c, r = Some c -> ~ In NUL c /\ length c < e_max e).
Proof.
  intros Ho [B1 B2 B3 B4] Hp Ht Hr Hlen.
  destruct (store_cstr (b_line b) p) as (l & s & El & Hs & Hu & Ll); [lia|].
  destruct (mm_TrimComments_spec l s Hs) as (l1 & s1 & E1 & C1 & U1 & L1).
  destruct (mm_TrimLeft_spec l1 s1 C1) as (l2 & s2 & E2 & C2 & U2 & L2).
  destruct (mm_TrimRight_spec l2 s2 C2) as (l3 & s3 & E3 & C3 & U3 & L3).
  assert (Et : s3 = t).
  { apply (text_unique p); [|exact Ht]. exists s, s1. split; [exact Hu|]. split; [exact U1|]. exists s2. auto. }
  subst s3. assert (Hnt : ~ In NUL t) by (apply cstr_some in C3; destruct C3 as (? & _ & K); exact K).
  destruct (mm_KeySplit_spec t (b_key b) 127 (b_val b) 127 Hnt) as (kb & vb & k & v & Ek & Hk & Kb & Vb & Lk & Lv); [lia|lia|].
  assert (Er : r = if negb (stricmp_eq k (L_ "Game")) && negb (stricmp_eq k (L_ "GameBin")) then None
     else Some (entry_path e src2 dir (stricmp_eq k (L_ "GameBin")) (firstn 127 v))).
  { apply (game_entry_unique _ _ _ _ _ _ _ Hr). apply entry_spec. exact Hk. }
  assert (Hvn : ~ In NUL (firstn 127 v)) by (apply cstr_some in Vb; destruct Vb as (? & _ & K); exact K).
  assert (Hcut : forall w, length w < 127 -> stricmp_eq (firstn 127 k) w = stricmp_eq k w).
  { intros w Hw. destruct (stricmp_eq k w) eqn:E.
    - apply stricmp_same. apply same_word_cut; [exact Hw|]. apply stricmp_same. exact E.
    - apply stricmp_false. rewrite same_word_cut by exact Hw. apply stricmp_false. exact E. }
  assert (Hrc : forall c, r = Some c -> ~ In NUL c /\ length c < e_max e).
  { intros c Ec. rewrite Er in Ec. destruct (negb _ && negb _); [discriminate|]. injection Ec as <-.
    apply (entry_path_ok e self); assumption. }
  assert (Ll3 : length l3 = 255) by (destruct L2, L3; congruence).
  exists l. unfold game_line. cbn [b_line b_key b_val b_tmp]. rewrite E1, E2, E3, C3.
  cbn zeta. replace (if stricmp_eq t (L_ "SearchPaths") then true else search) with (search || stricmp_eq t (L_ "SearchPaths"))
    by (destruct search, (stricmp_eq t (L_ "SearchPaths")); reflexivity).
  destruct (search || stricmp_eq t (L_ "SearchPaths")); cbn [negb].
  2:{ exists (mkbufs l3 (b_key b) (b_val b) (b_tmp b)). split; [exact El|]. split; [constructor; assumption|]. auto. }
  rewrite B2, B3. cbn [Nat.sub]. rewrite Ek, Kb, !Hcut by (cbn; lia).
  destruct Lk as [Lk _], Lv as [Lv _].
  destruct (negb (stricmp_eq k (L_ "Game")) && negb (stricmp_eq k (L_ "GameBin"))).
  { exists (mkbufs l3 kb vb (b_tmp b)). split; [exact El|]. split; [constructor; cbn; congruence|].
    split; [rewrite Er; reflexivity|exact Hrc]. }
  rewrite Vb. unfold entry_path in Er. destruct (base_of e dir (firstn 127 v)) as [base rest] eqn:Eb.
  destruct (base_not_nul e self dir _ base rest Ho Hvn Eb) as [N1 N2].
  pose proof (library_not_nul src2 base rest _ _ (server_path_library src2 base rest (stricmp_eq k (L_ "GameBin"))) N1 N2) as N3.
  destruct (mm_PathFormat_spec (b_tmp b) (e_max e) _ (eo_max _ _ _ Ho) (Nat.eq_le_incl _ _ (eq_sym B4)) N3) as (tb & kk & tt & -> & Ct & _ & _ & _ & Ett & Lt).
  rewrite Ct. change (tt = slashed (firstn (e_max e - 1) (server_path src2 (stricmp_eq k (L_ "GameBin")) base rest))) in Ett.
  rewrite <- Ett in Er. destruct (Hrc tt Er) as [Q1 Q2].
  destruct (add_path_spec e self tt paths (eo_max _ _ _ Ho) Q1 Q2 Hlen) as (ps & Eps & _).
  exists (mkbufs l3 kb vb tb). split; [exact El|]. split; [destruct Lt; constructor; cbn; congruence|].
  split; [|exact Hrc]. rewrite Er. unfold add1. rewrite Eps. reflexivity.
Qed.

(** ** All lines *)
Fixpoint take_all (e : env) (self : str) (cs : list str) (paths : list str) : list str :=
  match cs with
  | [] => paths
  | c :: cs' => if length paths =? MAX_PATHS then paths else take_all e self cs' (add1 e self c paths)
  end.
Lemma take_all_full e self cs paths : length paths = MAX_PATHS -> take_all e self cs paths = paths.
Proof. intros H. destruct cs; cbn [take_all]; [reflexivity|]. rewrite H. reflexivity. Qed.

Fixpoint pieces (fuel n : nat) (s : str) : list str :=
  match s with
  | [] => []
  | _ :: _ => match fuel with O => [] | S f => let (p, r) := take_line n s in p :: pieces f n r end
  end.
Lemma pieces_ok n fuel : forall s, 0 < n -> length s <= fuel -> fgets_pieces n s (pieces fuel n s).
Proof.
  induction fuel as [|fuel IH]; intros s Hn Hl; (destruct s as [|c s]; [constructor|]); [cbn in Hl; lia|].
  cbn [pieces]. destruct (take_line n (c :: s)) as [p r] eqn:E.
  destruct (take_line_pieces n (c :: s) p r Hn) as (E1 & E2 & E3 & E4 & E5); [discriminate|exact E|].
  rewrite E1. constructor; auto. apply IH; [exact Hn|].
  apply (f_equal (@length ascii)) in E1. rewrite app_length in E1. destruct p; [congruence|]. cbn [length] in *. lia.
Qed.

Definition entries (e : env) (src2 : bool) (dir : str) : list str -> list (option str) -> Prop :=
  Forall2 (fun l r => exists t, text_of_line l t /\ game_entry (e_max e) src2 dir (cwd_of e) t r).

Lemma entries_total e src2 dir ls : exists rs, entries e src2 dir ls rs.
Proof.
  induction ls as [|l ls (rs & IH)]; [exists []; constructor|].
  destruct (text_total l) as (t & Ht). destruct (entry_total e src2 dir t) as (r & Hr).
  exists (r :: rs). constructor; eauto.
Qed.

Lemma section_entry e src2 dir t r : same_word t (L_ "SearchPaths") ->
  game_entry (e_max e) src2 dir (cwd_of e) t r -> r = None.
Proof.
  intros Hs Hr.
  assert (Hnw : forall c, In c t -> ~ white c).
  { intros c Hc. destruct (In_nth_error _ _ Hc) as (i & Hi).
    assert (K : exists d, In d (L_ "SearchPaths") /\ same_letter c d).
    { clear -Hs Hc. induction Hs as [|x y l l' H H' IH]; [destruct Hc|]. destruct Hc as [<- | Hc].
      - exists y. split; [left; reflexivity|exact H].
      - destruct (IH Hc) as (d & Hd & Hx). exists d. split; [right; exact Hd|exact Hx]. }
    destruct K as (d & Hd & Hx). apply tolower_same in Hx. apply isspace_false.
    assert (Hall : forallb (fun d => negb (isspace (tolower d))) (L_ "SearchPaths") = true) by reflexivity.
    rewrite forallb_forall in Hall. specialize (Hall d Hd). rewrite <- Hx in Hall.
    unfold tolower in Hall. destruct ((65 <=? nat_of_ascii c) && (nat_of_ascii c <=? 90)) eqn:Ec.
    - apply andb_true_iff in Ec. destruct Ec as [C1 C2]. apply Nat.leb_le in C1, C2.
      destruct (isspace c) eqn:Esp; [|reflexivity]. exfalso. apply isspace_white in Esp. 
      unfold white in Esp. cbn in Esp. repeat (destruct Esp as [<- | Esp]; [vm_compute in C1; lia|]). exact Esp.
    - apply negb_true_iff. exact Hall. }
  assert (Hk : key_value t t []).
  { exists [], []. rewrite !app_nil_r. repeat split; auto.
    - intros (c & r0 & E & _). discriminate. }
  pose proof (same_word_length _ _ Hs) as Hlen. cbn in Hlen.
  destruct Hr as [k v K W1 W2|k v b0 r0 p K W P Li|k v b0 r0 p K W P Li]; [reflexivity| |];
    destruct (key_value_unique _ _ _ _ _ K Hk); subst; apply same_word_length in W; rewrite Hlen in W; discriminate W.
Qed.

Lemma add1_length e self c paths : length paths <= length (add1 e self c paths).
Proof.
  unfold add1, add_path. destruct (mm_PathCmp (e_real e) self c) as [[]|]; try lia.
  destruct (e_file e c); try lia. destruct (known e paths c) as [[]|]; try lia.
  destruct (length paths <? MAX_PATHS); try lia.
  destruct (FormatArgs _ _ _) as [[b k]|]; try lia. destruct (cstr b); try lia. rewrite app_length. lia.
Qed.
Lemma add1_max e self c paths : length paths < MAX_PATHS -> length (add1 e self c paths) <= MAX_PATHS.
Proof.
  intros H. unfold add1, add_path. destruct (mm_PathCmp (e_real e) self c) as [[]|]; try lia.
  destruct (e_file e c); try lia. destruct (known e paths c) as [[]|]; try lia.
  destruct (length paths <? MAX_PATHS); try lia.
  destruct (FormatArgs _ _ _) as [[b k]|]; try lia. destruct (cstr b); try lia. rewrite app_length. cbn. lia.
Qed.

Lemma pieces_step fuel n c s : let (p, r) := take_line n (c :: s) in pieces (S fuel) n (c :: s) = p :: pieces fuel n r.
Proof. cbn [pieces]. destruct (take_line n (c :: s)). reflexivity. Qed.

Lemma take_line_length n s p r : take_line n s = (p, r) -> length p <= n.
Proof.
  revert s p r. induction n as [|n IH]; intros s p r E; cbn in E; [injection E as <- _; cbn; lia|].
  destruct s as [|c s]; [injection E as <- _; cbn; lia|].
  destruct (Ascii.eqb c NL); [injection E as <- _; cbn; lia|].
  destruct (take_line n s) as [p' r'] eqn:E'. injection E as <- _. specialize (IH _ _ _ E'). cbn. lia.
Qed.

Lemma take_line_rest n c s p r : take_line (S n) (c :: s) = (p, r) -> length r <= length s.
Proof.
  intros E. destruct (take_line_pieces (S n) (c :: s) p r) as (E1 & E2 & _); [lia|discriminate|exact E|].
  apply (f_equal (@length ascii)) in E1. rewrite app_length in E1. destruct p; [congruence|]. cbn [length] in *. lia.
Qed.

(** with [search] on *)
Lemma loop_on e src2 self dir : env_ok e self dir -> forall fuel s b paths rs, bufs_ok e b -> length s <= fuel ->
  length paths < MAX_PATHS -> entries e src2 dir (pieces fuel 254 s) rs ->
  game_loop fuel e src2 self dir b true paths s = Some (take_all e self (somes rs) paths).
Proof.
  intros Ho. induction fuel as [|fuel IH]; intros s b paths rs Hb Hl Hp Hrs.
  - destruct s; [|cbn in Hl; lia]. inversion Hrs; subst. reflexivity.
  - destruct s as [|c s]; [inversion Hrs; subst; reflexivity|].
    pose proof (pieces_step fuel 254 c s) as Hps.
    destruct (take_line 254 (c :: s)) as [p r] eqn:Etl. rewrite Hps in Hrs.
    inversion Hrs as [|? x ? xs (t & Ht & Hx) Hxs]; subst.
    destruct (line_step e src2 self dir b p t x true paths Ho Hb (take_line_length _ _ _ _ Etl) Ht Hx Hp) as (l & b' & El & Hb' & Eg & Hc).
    cbn [orb] in Eg. unfold game_loop. fold game_loop. rewrite (bo_line e b Hb). cbn [Nat.sub]. rewrite Etl, El. cbn zeta in Eg. rewrite Eg.
    pose proof (take_line_rest _ _ _ _ _ Etl) as Hlr.
    destruct x as [x|]; cbn [somes flat_map app].
    + fold (@somes str xs). cbn [take_all]. replace (length paths =? MAX_PATHS) with false by (symmetry; apply Nat.eqb_neq; lia).
      destruct (Nat.eqb_spec (length (add1 e self x paths)) MAX_PATHS) as [E10|E10]; cbn [andb].
      * replace (length (add1 e self x paths) =? length paths) with false by (symmetry; apply Nat.eqb_neq; lia).
        cbn [negb]. rewrite take_all_full by exact E10. reflexivity.
      * apply IH; auto; [cbn in Hl; lia|]. pose proof (add1_max e self x paths Hp). lia.
    + fold (@somes str xs). rewrite Nat.eqb_refl. cbn [negb]. rewrite andb_false_r. apply IH; auto. cbn in Hl; lia.
Qed.

Lemma is_section_dec l t : text_of_line l t -> is_section l <-> same_word t (L_ "SearchPaths").
Proof.
  intros Ht. split; [|intros H; exists t; auto]. intros (t' & Ht' & H). rewrite (text_unique _ _ _ Ht Ht'). exact H.
Qed.

Lemma loop_off e src2 self dir : env_ok e self dir -> forall fuel s b paths, bufs_ok e b -> length s <= fuel ->
  length paths < MAX_PATHS -> exists cs, candidates (e_max e) src2 dir (cwd_of e) (pieces fuel 254 s) cs /\
  game_loop fuel e src2 self dir b false paths s = Some (take_all e self cs paths).
Proof.
  intros Ho. induction fuel as [|fuel IH]; intros s b paths Hb Hl Hp.
  - destruct s; [|cbn in Hl; lia]. exists []. split; [apply ca_none; constructor|reflexivity].
  - destruct s as [|c s]; [exists []; split; [apply ca_none; constructor|reflexivity]|].
    pose proof (pieces_step fuel 254 c s) as Hps.
    destruct (take_line 254 (c :: s)) as [p r] eqn:Etl. rewrite Hps.
    destruct (text_total p) as (t & Ht). destruct (entry_total e src2 dir t) as (x & Hx).
    destruct (line_step e src2 self dir b p t x false paths Ho Hb (take_line_length _ _ _ _ Etl) Ht Hx Hp) as (l & b' & El & Hb' & Eg & Hc).
    pose proof (take_line_rest _ _ _ _ _ Etl) as Hlr.
    assert (Egl : game_loop (S fuel) e src2 self dir b false paths (c :: s) =
      game_loop fuel e src2 self dir b' (stricmp_eq t (L_ "SearchPaths")) paths r).
    { unfold game_loop at 1. fold game_loop. rewrite (bo_line e b Hb). cbn [Nat.sub]. rewrite Etl, El.
      cbn [orb] in Eg. cbn zeta in Eg. rewrite Eg.
      destruct (stricmp_eq t (L_ "SearchPaths")) eqn:Es.
      - apply stricmp_same in Es. rewrite (section_entry e src2 dir t x Es Hx). rewrite Nat.eqb_refl. cbn [negb]. rewrite andb_false_r. reflexivity.
      - rewrite Nat.eqb_refl. cbn [negb]. rewrite andb_false_r. reflexivity. }
    rewrite Egl. destruct (stricmp_eq t (L_ "SearchPaths")) eqn:Es.
    + apply stricmp_same in Es. destruct (entries_total e src2 dir (pieces fuel 254 r)) as (rs & Hrs).
      exists (somes rs). split.
      * apply (ca_some _ _ _ _ _ [] p (pieces fuel 254 r)); [reflexivity|constructor| |exact Hrs]. exists t. auto.
      * apply loop_on; auto. cbn in Hl; lia.
    + apply stricmp_false in Es. destruct (IH r b' paths Hb') as (cs & Hcs & E); [cbn in Hl; lia|exact Hp|].
      exists cs. split; [|exact E].
      assert (Hns : ~ is_section p) by (rewrite (is_section_dec p t Ht); exact Es).
      destruct Hcs as [F|pre l0 post rs E1 F S1 F2].
      * apply ca_none. constructor; assumption.
      * rewrite E1. apply (ca_some _ _ _ _ _ (p :: pre) l0 post rs); auto.
Qed.

(** ** The choice *)
Lemma same_path_refl e p : same_path e p p. Proof. reflexivity. Qed.
Lemma same_path_sym e p q : same_path e p q -> same_path e q p. Proof. unfold same_path. congruence. Qed.
Lemma same_path_trans e p q r : same_path e p q -> same_path e q r -> same_path e p r.
Proof. unfold same_path. congruence. Qed.

Definition at_ (cs : list str) (is : list nat) (ps : list str) : Prop :=
  Forall2 (fun i p => nth_error cs i = Some p) is ps.

Lemma nth_snoc (cs : list str) c i : nth_error (cs ++ [c]) i =
  if i <? length cs then nth_error cs i else if i =? length cs then Some c else None.
Proof.
  destruct (Nat.ltb_spec i (length cs)) as [H|H]; [apply nth_error_app1; exact H|].
  rewrite nth_error_app2 by exact H. destruct (Nat.eqb_spec i (length cs)) as [-> | Hi]; [rewrite Nat.sub_diag; reflexivity|].
  destruct (i - length cs) as [|k] eqn:E; [lia|]. cbn. destruct k; reflexivity.
Qed.
Lemma nth_snoc_old (cs : list str) c i x : nth_error cs i = Some x -> nth_error (cs ++ [c]) i = Some x.
Proof. intros H. rewrite nth_error_app1; [exact H|]. apply nth_error_Some. congruence. Qed.

Lemma at_in cs ixs ps p : at_ cs ixs ps -> In p ps -> exists i, In i ixs /\ nth_error cs i = Some p.
Proof.
  intros H Hin. induction H as [|i q ixs ps Hi H IH]; [destruct Hin|]. destruct Hin as [<- | Hin].
  - exists i. split; [left; reflexivity|exact Hi].
  - destruct (IH Hin) as (j & A & B). exists j. split; [right; exact A|exact B].
Qed.
Lemma at_in_inv cs ixs ps i p : at_ cs ixs ps -> In i ixs -> nth_error cs i = Some p -> In p ps.
Proof.
  intros H Hin Hp. induction H as [|j q ixs ps Hi H IH]; [destruct Hin|]. destruct Hin as [-> | Hin].
  - left. congruence.
  - right. apply IH, Hin.
Qed.
Lemma at_snoc cs c ixs ps : at_ cs ixs ps -> at_ (cs ++ [c]) ixs ps.
Proof. intros H. induction H; constructor; auto using nth_snoc_old. Qed.
Lemma at_length cs ixs ps : at_ cs ixs ps -> length ixs = length ps.
Proof. intros H. induction H; cbn; congruence. Qed.

Section Choice.
Variables (e : env) (self : str).
Let ok := allowed e self.
Let same := same_path e.

Lemma chosen_nil n : chosen ok same n [] [].
Proof.
  constructor.
  - intros a i b j c E. apply app_cons_not_nil in E. destruct E.
  - intros i [].
  - intros i j c d [].
  - cbn; lia.
  - intros i c E. destruct i; discriminate.
Qed.

Lemma chosen_skip n cs ixs c : chosen ok same n cs ixs ->
  ~ ok c \/ (exists j d, In j ixs /\ nth_error cs j = Some d /\ same d c) \/ length ixs = n ->
  chosen ok same n (cs ++ [c]) ixs.
Proof.
  intros [O I F M Lf] Hc.
  assert (Hlt : forall i, In i ixs -> i < length cs).
  { intros i Hi. destruct (I i Hi) as (x & E & _). apply nth_error_Some. congruence. }
  constructor; auto.
  - intros i Hi. destruct (I i Hi) as (x & E & K). exists x. split; [apply nth_snoc_old; exact E|exact K].
  - intros i j x d Hi Hj Ex Ed. apply (F i j); auto.
    + rewrite nth_error_app1 in Ex; [exact Ex|apply Hlt; exact Hi].
    + rewrite nth_error_app1 in Ed; [exact Ed|]. specialize (Hlt i Hi). lia.
  - intros i x Ex Hn. rewrite nth_snoc in Ex. destruct (Nat.ltb_spec i (length cs)) as [Hi|Hi].
    + destruct (Lf i x Ex Hn) as [K|[(j & d & K1 & K2 & K3 & K4)|K]]; auto.
      right. left. exists j, d. auto using nth_snoc_old.
    + destruct (Nat.eqb_spec i (length cs)) as [-> | Hne]; [|discriminate]. injection Ex as <-.
      destruct Hc as [K|[(j & d & K1 & K2 & K3)|K]]; auto.
      right. left. exists j, d. split; [apply Hlt; exact K1|]. auto using nth_snoc_old.
Qed.

Lemma chosen_take n cs ixs c : chosen ok same n cs ixs -> ok c -> length ixs < n ->
  (forall j d, In j ixs -> nth_error cs j = Some d -> ~ same d c) ->
  chosen ok same n (cs ++ [c]) (ixs ++ [length cs]).
Proof.
  intros [O I F M Lf] Hok Hn Hd.
  assert (Hlt : forall i, In i ixs -> i < length cs).
  { intros i Hi. destruct (I i Hi) as (x & E & _). apply nth_error_Some. congruence. }
  constructor.
  - intros a i b j c' E. destruct c' as [|y c'] using rev_ind.
    + change (ixs ++ [length cs] = a ++ (i :: b) ++ [j]) in E. rewrite app_assoc in E.
      apply app_inj_tail in E. destruct E as [E <-]. apply Hlt. rewrite E. apply in_or_app. right; left; reflexivity.
    + clear IHc'. apply (O a i b j c').
      change (ixs ++ [length cs] = a ++ (i :: b) ++ (j :: c') ++ [y]) in E. rewrite !app_assoc in E.
      apply app_inj_tail in E. destruct E as [E _]. rewrite E, <- !app_assoc. reflexivity.
  - intros i Hi. apply in_app_or in Hi. destruct Hi as [Hi|[<- | []]].
    + destruct (I i Hi) as (x & E & K). exists x. split; [apply nth_snoc_old; exact E|exact K].
    + exists c. split; [|exact Hok]. rewrite nth_snoc, Nat.ltb_irrefl, Nat.eqb_refl. reflexivity.
  - intros i j x d Hi Hj Ex Ed Hokd. apply in_app_or in Hi. destruct Hi as [Hi|[<- | []]].
    + pose proof (Hlt i Hi). rewrite nth_error_app1 in Ex by lia. rewrite nth_error_app1 in Ed by lia.
      exact (F i j x d Hi Hj Ex Ed Hokd).
    + rewrite nth_snoc, Nat.ltb_irrefl, Nat.eqb_refl in Ex. injection Ex as <-. rewrite nth_error_app1 in Ed by lia.
      destruct (in_dec Nat.eq_dec j ixs) as [Hin|Hnin]; [exact (Hd j d Hin Ed)|].
      destruct (Lf j d Ed Hnin) as [K|[(k & y & K1 & K2 & K3 & K4)|(K & _)]]; [contradiction| |lia].
      intros Hs. apply (Hd k y K2 K3). exact (same_path_trans _ _ _ _ K4 Hs).
  - rewrite app_length. cbn. lia.
  - intros i x Ex Hnin. rewrite nth_snoc in Ex. destruct (Nat.ltb_spec i (length cs)) as [Hi|Hi].
    + assert (Hni : ~ In i ixs) by (intros H; apply Hnin, in_or_app; left; exact H).
      destruct (Lf i x Ex Hni) as [K|[(j & d & K1 & K2 & K3 & K4)|(K & _)]]; [auto| |lia].
      right. left. exists j, d. split; [exact K1|]. split; [apply in_or_app; left; exact K2|]. auto using nth_snoc_old.
    + destruct (Nat.eqb_spec i (length cs)) as [-> | Hne]; [|discriminate].
      exfalso. apply Hnin, in_or_app. right; left; reflexivity.
Qed.

Lemma take_all_chosen : forall cs pre ixs ps, 0 < e_max e ->
  (forall c, In c cs -> ~ In NUL c /\ length c < e_max e) ->
  chosen ok same MAX_PATHS pre ixs -> at_ pre ixs ps ->
  exists ixs', chosen ok same MAX_PATHS (pre ++ cs) ixs' /\ at_ (pre ++ cs) ixs' (take_all e self cs ps).
Proof.
  induction cs as [|c cs IH]; intros pre ixs ps Hm Hcs Hch Hat; cbn [take_all].
  - exists ixs. rewrite app_nil_r. auto.
  - replace (pre ++ c :: cs) with ((pre ++ [c]) ++ cs) by (rewrite <- app_assoc; reflexivity).
    pose proof (at_length _ _ _ Hat) as Hlen. pose proof (ch_max _ _ _ _ _ Hch) as Hmax.
    assert (Hrest : forall d, In d cs -> ~ In NUL d /\ length d < e_max e) by (intros d Hd; apply Hcs; right; exact Hd).
    destruct (Nat.eqb_spec (length ps) MAX_PATHS) as [E|E].
    + destruct (IH (pre ++ [c]) ixs ps Hm Hrest) as (ixs' & A & B).
      { apply chosen_skip; [exact Hch|]. right. right. congruence. }
      { apply at_snoc. exact Hat. }
      exists ixs'. rewrite take_all_full in B by exact E. auto.
    + destruct (Hcs c (or_introl eq_refl)) as [Q1 Q2].
      destruct (add_path_spec e self c ps Hm Q1 Q2) as (ps' & Eadd & K); [lia|].
      unfold add1. rewrite Eadd. destruct K as [(-> & K)|(-> & K1 & K2)].
      * apply (IH (pre ++ [c]) ixs ps Hm Hrest); [|apply at_snoc; exact Hat].
        apply chosen_skip; [exact Hch|]. destruct K as [K|(p & Hp & Hs)]; [left; exact K|].
        right. left. destruct (at_in _ _ _ _ Hat Hp) as (i & Hi & Ei). exists i, p. auto.
      * apply (IH (pre ++ [c]) (ixs ++ [length pre]) (ps ++ [c]) Hm Hrest).
        { apply chosen_take; [exact Hch|exact K1|lia|]. intros j d Hj Ed. apply K2. exact (at_in_inv _ _ _ _ _ Hat Hj Ed). }
        { apply Forall2_app; [apply at_snoc; exact Hat|]. constructor; [|constructor].
          rewrite nth_snoc, Nat.ltb_irrefl, Nat.eqb_refl. reflexivity. }
Qed.
End Choice.
