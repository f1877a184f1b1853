(** C89: what a plugin is told when it is created. *)
From Coq Require Import List ZArith Bool Lia.
From Verif Require Import ToldModel ToldSpec.
Import ListNotations.
Local Open Scope Z_scope.

Definition conv (win : bool) (c : Z) : Z := if c =? ALT_SEP win then PATH_SEP win else c.

Lemma after_last_some : forall sep r best x, after_last sep r best = Some x ->
  best = Some x /\ ~ In sep r \/ exists f, r = f ++ sep :: x /\ ~ In sep x.
Proof.
  intros sep r. induction r as [|c r IH]; intros best x H; cbn [after_last] in H.
  - left. split; [exact H|intros []].
  - apply IH in H. destruct H as [[H N]|[f [E N]]].
    + destruct (c =? sep) eqn:Q.
      * apply Z.eqb_eq in Q. subst c. inversion H; subst x. right. exists []. auto.
      * left. split; [exact H|]. intros [W|W]; [apply Z.eqb_neq in Q; congruence|exact (N W)].
    + right. exists (c :: f). subst r. auto.
Qed.

Lemma after_last_none : forall sep r best, after_last sep r best = None -> best = None /\ ~ In sep r.
Proof.
  intros sep r. induction r as [|c r IH]; intros best H; cbn [after_last] in H; [auto|].
  apply IH in H. destruct H as [H N]. destruct (c =? sep) eqn:Q; [discriminate|].
  split; [exact H|]. intros [W|W]; [apply Z.eqb_neq in Q; congruence|exact (N W)].
Qed.

Lemma put_app : forall a x r c, put (a ++ x :: r) (length a) c = a ++ c :: r.
Proof. induction a as [|y a IH]; intros x r c; [reflexivity|]. cbn [app length put]. rewrite IH. reflexivity. Qed.

Lemma cut_sep : forall win name d s r, (forall c, In c name -> is_sep win c = false) -> is_sep win s = true ->
  cut win (length (d ++ s :: name)) (d ++ s :: name ++ r) = Some (d ++ 0 :: name ++ r).
Proof.
  intros win name. induction name as [|c name IH] using rev_ind; intros d s r N HS.
  - cbn [app]. rewrite app_length. cbn [length]. replace (length d + 1)%nat with (S (length d)) by lia. cbn [cut].
    rewrite nth_error_app2 by lia. rewrite Nat.sub_diag. cbn [nth_error]. rewrite HS, put_app. reflexivity.
  - replace (length (d ++ s :: name ++ [c])) with (S (length (d ++ s :: name)))
      by (rewrite !app_length; cbn [length]; rewrite app_length; cbn [length]; lia).
    cbn [cut]. replace (d ++ s :: (name ++ [c]) ++ r) with ((d ++ s :: name) ++ c :: r)
      by (rewrite <- !app_assoc; reflexivity).
    rewrite nth_error_app2 by lia. rewrite Nat.sub_diag. cbn [nth_error].
    rewrite (N c) by (apply in_or_app; right; left; reflexivity).
    replace ((d ++ s :: name) ++ c :: r) with (d ++ s :: name ++ (c :: r)) by (rewrite <- app_assoc; reflexivity).
    rewrite IH; [|intros x Hx; apply N; apply in_or_app; left; exact Hx|exact HS].
    rewrite <- app_assoc. reflexivity.
Qed.

Lemma cut_total : forall win n b, (n <= length b)%nat -> exists b', cut win n b = Some b' /\ length b' = length b /\
  (forall i, (n <= i)%nat -> nth_error b' i = nth_error b i).
Proof.
  assert (PL : forall b i c, length (put b i c) = length b).
  { induction b as [|x b IH]; intros [|i] c; cbn [put length]; auto. }
  assert (PN : forall b i c j, (i < j)%nat -> nth_error (put b i c) j = nth_error b j).
  { induction b as [|x b IH]; intros [|i] c [|j] H; cbn [put nth_error]; auto; try lia. apply IH. lia. }
  intros win n. induction n as [|n IH]; intros b H; cbn [cut].
  - exists b. auto.
  - destruct (nth_error b n) as [c|] eqn:E; [|apply nth_error_None in E; lia].
    destruct (is_sep win c).
    + eexists. split; [reflexivity|]. split; [apply PL|]. intros i Hi. apply PN. lia.
    + destruct (IH b) as [b' [B1 [B2 B3]]]; [lia|]. exists b'. split; [exact B1|]. split; [exact B2|]. intros i Hi. apply B3. lia.
Qed.

Lemma ctext_in : forall b i, nth_error b i = Some 0 -> exists t, ctext b = Some t.
Proof.
  induction b as [|c b IH]; intros [|i] H; cbn [nth_error] in H; try discriminate; cbn [ctext].
  - inversion H. exists []. reflexivity.
  - destruct (c =? 0); [exists []; reflexivity|]. destruct (IH i H) as [t E]. rewrite E. exists (c :: t). reflexivity.
Qed.

Lemma ctext_app : forall t r, ~ In 0 t -> ctext (t ++ 0 :: r) = Some t.
Proof.
  induction t as [|c t IH]; intros r N; [reflexivity|]. cbn [app ctext].
  replace (c =? 0) with false by (symmetry; apply Z.eqb_neq; intro E; apply N; left; exact E).
  rewrite IH by (intro H; apply N; right; exact H). reflexivity.
Qed.

Lemma file_path_form : forall win old file, file_path win old file =
  let t := map (conv win) (firstn 255 file) in cut win (length t) (t ++ 0 :: skipn (S (length t)) old).
Proof.
  intros win old file. unfold file_path, format, fix_seps. change (N256 - 1)%nat with 255%nat.
  set (k := Nat.min (length file) 255).
  assert (F : firstn k file = firstn 255 file).
  { unfold k. destruct (Nat.min_spec (length file) 255) as [[H ->]|[H ->]]; [|reflexivity].
    rewrite !firstn_all2 by lia. reflexivity. }
  assert (L : length (firstn 255 file) = k) by (rewrite firstn_length; unfold k; lia).
  cbv zeta. rewrite map_length, F, L. rewrite firstn_app, skipn_app, L, Nat.sub_diag.
  rewrite (firstn_all2 (firstn 255 file)) by lia. rewrite (skipn_all2 (firstn 255 file)) by lia.
  cbn [firstn skipn app]. rewrite app_nil_r. reflexivity.
Qed.

Lemma file_path_total : forall win old file, exists b t, file_path win old file = Some b /\ ctext b = Some t.
Proof.
  intros win old file. rewrite file_path_form. cbv zeta. set (t := map (conv win) (firstn 255 file)).
  destruct (cut_total win (length t) (t ++ 0 :: skipn (S (length t)) old)) as [b [B1 [B2 B3]]]; [rewrite app_length; lia|].
  destruct (ctext_in b (length t)) as [u U].
  { rewrite B3 by lia. rewrite nth_error_app2 by lia. rewrite Nat.sub_diag. reflexivity. }
  exists b, u. split; [exact B1|exact U].
Qed.

Lemma conv_zero : forall win c, conv win c = 0 -> c = 0.
Proof. intros win c. unfold conv, ALT_SEP, PATH_SEP, SLASH, BACKSLASH. destruct win, (c =? _); intros H; try discriminate; exact H. Qed.

Lemma conv_sep : forall win s, (sep_char win s \/ win = false /\ s = 92) -> is_sep win (conv win s) = true.
Proof.
  intros win s H. unfold sep_char in H.
  destruct win; destruct H as [[H|[H1 H2]]|[H1 H2]]; try discriminate; subst s; reflexivity.
Qed.
Lemma conv_no_sep : forall win c, ~ sep_char win c -> c <> 92 -> is_sep win (conv win c) = false.
Proof.
  intros win c N M. unfold sep_char in N. unfold conv, is_sep, ALT_SEP, PATH_SEP, SLASH, BACKSLASH.
  destruct win; destruct (Z.eqb_spec c 47); destruct (Z.eqb_spec c 92); try congruence; try (exfalso; apply N; auto; fail);
    rewrite ?Bool.orb_false_r; cbn; repeat match goal with |- context [c =? ?x] => destruct (Z.eqb_spec c x); try congruence end; reflexivity.
Qed.

(** The folder the plugin is told is the folder of its file, if the folder's name has up
    to 254 characters. *)
Theorem C89_folder : forall win old d s name, ~ In 0 (d ++ s :: name) ->
  (sep_char win s \/ (win = false /\ s = 92)) -> (forall c, In c name -> ~ sep_char win c /\ c <> 92) ->
  (length d <= 254)%nat ->
  exists b p, file_path win old (d ++ s :: name) = Some b /\ ctext b = Some p /\ folder_of win (d ++ s :: name) p.
Proof.
  intros win old d s name Z0 Hs Hn Hd. rewrite file_path_form. cbv zeta.
  assert (F : firstn 255 (d ++ s :: name) = d ++ s :: firstn (255 - S (length d)) name).
  { rewrite firstn_app. rewrite firstn_all2 by lia. f_equal.
    replace (255 - length d)%nat with (S (255 - S (length d))) by lia. reflexivity. }
  rewrite F, map_app. cbn [map]. set (nm := map (conv win) (firstn (255 - S (length d)) name)).
  set (dd := map (conv win) d). set (r := 0 :: skipn _ old).
  replace ((dd ++ conv win s :: nm) ++ r) with (dd ++ conv win s :: nm ++ r) by (rewrite <- app_assoc; reflexivity).
  rewrite (cut_sep win nm dd (conv win s) r).
  - eexists. exists dd. split; [reflexivity|]. split.
    + apply ctext_app. unfold dd. intro H. apply in_map_iff in H. destruct H as [c [E H]].
      apply conv_zero in E. subst c. apply Z0. apply in_or_app. left; exact H.
    + exists d, s, name. split; [reflexivity|]. split; [exact Hs|]. split; [exact Hn|].
      unfold dd. clear. induction d as [|c d IH]; constructor; [|exact IH].
      unfold conv, ALT_SEP, PATH_SEP, SLASH, BACKSLASH. destruct win; reflexivity.
  - intros c H. unfold nm in H. apply in_map_iff in H. destruct H as [x [E H]]. subst c.
    assert (I : In x name).
    { rewrite <- (firstn_skipn (255 - S (length d)) name). apply in_or_app. left; exact H. }
    destruct (Hn x I) as [H1 H2]. apply conv_no_sep; assumption.
  - apply conv_sep, Hs.
Qed.
Print Assumptions C89_folder.

(** Whatever the file's name, the array keeps its 256 bytes and holds a text. *)
Theorem C89_in_array : forall win old file, length old = 256%nat ->
  exists b p, file_path win old file = Some b /\ ctext b = Some p /\ length b = 256%nat.
Proof.
  intros win old file L. destruct (file_path_total win old file) as [b [p [B P]]]. exists b, p.
  split; [exact B|]. split; [exact P|]. revert B. rewrite file_path_form. cbv zeta.
  set (t := map (conv win) (firstn 255 file)). intros B.
  destruct (cut_total win (length t) (t ++ 0 :: skipn (S (length t)) old)) as [b' [B1 [B2 _]]]; [rewrite app_length; lia|].
  assert (Q : (length t <= 255)%nat) by (unfold t; rewrite map_length; apply firstn_le_length).
  rewrite B in B1. inversion B1; subst b'. rewrite B2, app_length. cbn [length]. rewrite skipn_length. lia.
Qed.
Print Assumptions C89_in_array.
Example C89_in_array_example : exists b p,
  file_path true (repeat 7 256) (repeat 97 300) = Some b /\ ctext b = Some p /\ p = repeat 97 255 /\ length b = 256%nat.
Proof. eexists. eexists. repeat (split; [vm_compute; reflexivity|]). vm_compute. reflexivity. Qed.

(** "/a/b.so" in an array full of junk. *)
Example C89_folder_example : exists b,
  file_path false (repeat 7 256) [47; 97; 47; 98; 46; 115; 111] = Some b /\ ctext b = Some [47; 97].
Proof. eexists. split; vm_compute; reflexivity. Qed.
Example C89_folder_hyps : ~ In 0 ([47; 97] ++ 47 :: [98; 46; 115; 111]) /\ sep_char false 47 /\
  (forall c, In c [98; 46; 115; 111] -> ~ sep_char false c /\ c <> 92).
Proof.
  split; [cbn; lia|]. split; [left; reflexivity|]. intros c H. cbn [In] in H. split; [|lia].
  intros [Q|[Q _]]; [lia|discriminate].
Qed.

(** With a longer folder the plugin is told a folder it is not in: here the file is
    /x/aaa...a/b with 260 times a, and the plugin is told /x. *)
Theorem C89_long_folder_refuted : exists file b p,
  file = [47; 120; 47] ++ repeat 97 260 ++ [47; 98] /\
  file_path false (repeat 7 256) file = Some b /\ ctext b = Some p /\ p = [47; 120] /\ ~ folder_of false file p.
Proof.
  exists ([47; 120; 47] ++ repeat 97 260 ++ [47; 98]). eexists. exists [47; 120].
  split; [reflexivity|]. split; [vm_compute; reflexivity|]. split; [vm_compute; reflexivity|]. split; [reflexivity|].
  intros [d [s [name [E [_ [N F]]]]]].
  assert (L : length d = 2%nat).
  { assert (G : forall R (u v : text), Forall2 R u v -> length u = length v)
      by (intros R u v W; induction W as [|x y u v _ _ IH]; [reflexivity|cbn [length]; rewrite IH; reflexivity]).
    exact (G _ _ _ F). }
  destruct d as [|x1 [|x2 [|x3 d]]]; try discriminate L.
  cbn [app] in E. inversion E as [[E1 E2 E3 E4]]. clear E.
  assert (H : In 47 name) by (rewrite <- E4; exact (in_or_app (repeat 97 260) [47; 98] 47 (or_intror (or_introl eq_refl)))).
  destruct (N 47 H) as [Q _]. apply Q. left; reflexivity.
Qed.
Print Assumptions C89_long_folder_refuted.

(** All plugins, in whatever order and whatever they answer: each is told the engine that
    is there, first; the two older names follow on Valve's games only, and only as long as
    the plugin answers nothing; its answer is the first one that is not NULL; each is told
    the game's folder name and its own file; and nothing outside of an array is touched. *)
Theorem C89_told : forall win valve build base d l, last_part win base d ->
  exists g out, creates win valve build base l glob0 = Some (g, out) /\
  Forall2 (fun q o => exists p, (exists b, file_path win (q_old q) (q_file q) = Some b /\ ctext b = Some p) /\
     let '(es, a) := tries (fun e => q_make q (Call e d (q_file q) p)) (engines valve build) in
     fst o = map (fun e => Call e d (q_file q) p) es /\ snd o = a) l out.
Proof.
  intros win valve build base d l [front [s [E [Hs N]]]].
  assert (A : after_last (PATH_SEP win) base None = Some d).
  { assert (SE : s = PATH_SEP win) by (destruct win; exact Hs).
    destruct (after_last (PATH_SEP win) base None) as [x|] eqn:Q.
    - apply after_last_some in Q. destruct Q as [[Q _]|[f [Q M]]]; [discriminate|]. rewrite E in Q. rewrite <- SE in Q, M.
      f_equal. clear - Q N M. revert f Q. induction front as [|c front IH]; intros f Q.
      + destruct f as [|y f]; cbn [app] in Q; assert (Q2 := f_equal (@tl Z) Q); cbn [tl] in Q2; [congruence|].
        exfalso. apply N. rewrite Q2. apply in_or_app. right; left; reflexivity.
      + destruct f as [|y f]; cbn [app] in Q; assert (Q2 := f_equal (@tl Z) Q); cbn [tl] in Q2.
        * exfalso. apply M. rewrite <- Q2. apply in_or_app. right; left; reflexivity.
        * apply (IH f Q2).
    - apply after_last_none in Q. exfalso. apply (proj2 Q). rewrite E, <- SE. apply in_or_app. right; left; reflexivity. }
  assert (G : forall l g, (g_engine g = 0 \/ g_engine g = build) -> (g_dir g = None \/ g_dir g = Some d) ->
    exists g' out, creates win valve build base l g = Some (g', out) /\
  Forall2 (fun q o => exists p, (exists b, file_path win (q_old q) (q_file q) = Some b /\ ctext b = Some p) /\
     let '(es, a) := tries (fun e => q_make q (Call e d (q_file q) p)) (engines valve build) in
     fst o = map (fun e => Call e d (q_file q) p) es /\ snd o = a) l out).
  { clear l. induction l as [|q l IH]; intros g HE HD.
    - exists g, []. split; [reflexivity|constructor].
    - destruct (file_path_total win (q_old q) (q_file q)) as [b [p [B P]]].
      cbn [creates]. unfold create.
      assert (EE : (if g_engine g =? 0 then build else g_engine g) = build).
      { destruct (g_engine g =? 0) eqn:Q; [reflexivity|]. apply Z.eqb_neq in Q. destruct HE; [contradiction|assumption]. }
      assert (DD : (match g_dir g with Some d0 => Some d0 | None => after_last (PATH_SEP win) base None end) = Some d)
        by (destruct HD as [->| ->]; [exact A|reflexivity]).
      rewrite EE, DD, B, P. cbv zeta.
      assert (X : forall g1 cs a, (g_engine g1 = build) -> g_dir g1 = Some d ->
        (let '(es, a') := tries (fun e => q_make q (Call e d (q_file q) p)) (engines valve build) in
           cs = map (fun e => Call e d (q_file q) p) es /\ a = a') ->
        exists g' out, match creates win valve build base l g1 with
          | Some (g2, rest) => Some (g2, (cs, a) :: rest) | None => None end = Some (g', out) /\
        Forall2 (fun q o => exists p, (exists b, file_path win (q_old q) (q_file q) = Some b /\ ctext b = Some p) /\
          let '(es, a) := tries (fun e => q_make q (Call e d (q_file q) p)) (engines valve build) in
          fst o = map (fun e => Call e d (q_file q) p) es /\ snd o = a) (q :: l) out).
      { intros g1 cs a E1 D1 T. destruct (IH g1 (or_intror E1) (or_intror D1)) as [g' [out [C F]]].
        rewrite C. exists g', ((cs, a) :: out). split; [reflexivity|]. constructor; [|exact F].
        exists p. split; [exists b; split; [exact B|exact P]|]. cbn [fst snd]. exact T. }
      destruct valve; cbn [andb].
      + destruct (q_make q (Call build d (q_file q) p) =? 0) eqn:M1.
        * destruct (q_make q (Call ORANGEBOXVALVE_DEPRECATED d (q_file q) p) =? 0) eqn:M2.
          -- apply X; [reflexivity|reflexivity|]. unfold engines. cbn [tries]. rewrite M1.
             change 6 with ORANGEBOXVALVE_DEPRECATED. rewrite M2. change 3 with ORANGEBOX.
             destruct (q_make q (Call ORANGEBOX d (q_file q) p) =? 0) eqn:M3; cbn [map]; split; try reflexivity.
             apply Z.eqb_eq in M3. exact M3.
          -- apply X; [reflexivity|reflexivity|]. unfold engines. cbn [tries]. rewrite M1.
             change 6 with ORANGEBOXVALVE_DEPRECATED. rewrite M2. split; reflexivity.
        * apply X; [reflexivity|reflexivity|]. unfold engines. cbn [tries]. rewrite M1. split; reflexivity.
      + apply X; [reflexivity|reflexivity|]. unfold engines. cbn [tries].
        destruct (q_make q (Call build d (q_file q) p) =? 0) eqn:M1; cbn [map]; split; try reflexivity.
        apply Z.eqb_eq in M1. exact M1. }
  destruct (G l glob0) as [g [out [C F]]]; [left; reflexivity|left; reflexivity|].
  exists g, out. split; [exact C|exact F].
Qed.
Print Assumptions C89_told.

(** On TF2 (build 12 here) in /srv/tf: a plugin that only knows the Orange Box, then one
    that knows everything. *)
Example C89_told_example : last_part false [47; 115; 47; 116; 102] [116; 102] /\
  option_map (fun r => map (fun o => (map k_engine (fst o), map k_dir (fst o), snd o)) (snd r))
   (creates false true 12 [47; 115; 47; 116; 102]
     [Plugin (repeat 7 256) [47; 97; 47; 98] (fun c => if k_engine c =? 3 then 500 else 0);
      Plugin (repeat 9 256) [47; 97; 47; 99] (fun c => 600)] glob0)
  = Some [([12; 6; 3], [[116; 102]; [116; 102]; [116; 102]], 500); ([12], [[116; 102]], 600)].
Proof.
  split; [|vm_compute; reflexivity]. exists [47; 115], 47. split; [reflexivity|]. split; [reflexivity|]. cbn. lia.
Qed.

(** A game's path without the system's separator (on Windows: one with slashes only) makes
    the game's folder name an invalid address. *)
Theorem C89_no_separator_refuted : exists base q, base = [99; 58; 47; 116; 102] /\
  creates true false 1 base [q] glob0 = None.
Proof. eexists. exists (Plugin (repeat 7 256) [97] (fun _ => 1)). split; [reflexivity|vm_compute; reflexivity]. Qed.
Print Assumptions C89_no_separator_refuted.
