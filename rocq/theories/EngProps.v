(** C52: engine detection. *)
From Coq Require Import List Arith Ascii Bool Lia String NArith.
From Verif Require Import Base StrModel StrSpec StrProofs EngModel EngSpec.
Import ListNotations.
Local Open Scope string_scope.
Local Open Scope nat_scope.
Notation length := List.length.

Lemma game_true g s : game g s = true <-> g = list_ascii_of_string s.
Proof. apply str_eqb_spec. Qed.
Lemma game_false g s : game g s = false <-> g <> list_ascii_of_string s.
Proof. rewrite <- game_true. destruct (game g s); intuition congruence. Qed.

Lemma named_inj (g : str) a b : g = list_ascii_of_string a -> g = list_ascii_of_string b -> a = b.
Proof.
  intros -> H. rewrite <- (string_of_list_ascii_of_string a), <- (string_of_list_ascii_of_string b), H. reflexivity.
Qed.

Ltac unf := unfold is_css, is_tf, is_dod, valve_ob, csgo_like, swarm_like, l4d_like, orange_box, old, f021, f022, f023,
  EngSpec.is_game, EngSpec.Eng, EngSpec.Srv, EngSpec.named in *.

Lemma TF2branch_sound e s p g : valve_ob e -> engine_is e s p g (TF2branch e s p g).
Proof.
  intros V. unfold TF2branch.
  destruct (game g "cstrike" || p "DT_CSPlayerResource") eqn:E1.
  { apply e_css; auto. unf. apply orb_true_iff in E1. rewrite game_true in E1. tauto. }
  assert (N1 : ~ is_css p g) by (unf; apply orb_false_iff in E1; rewrite game_false in E1; intuition congruence).
  destruct (game g "tf" || p "DT_TFPlayerResource") eqn:E2.
  { apply e_tf2; auto. unf. apply orb_true_iff in E2. rewrite game_true in E2. tauto. }
  assert (N2 : ~ is_tf p g) by (unf; apply orb_false_iff in E2; rewrite game_false in E2; intuition congruence).
  destruct (game g "dod" || p "DT_DODPlayerResource") eqn:E3.
  { apply e_dods; auto. unf. apply orb_true_iff in E3. rewrite game_true in E3. tauto. }
  assert (N3 : ~ is_dod p g) by (unf; apply orb_false_iff in E3; rewrite game_false in E3; intuition congruence).
  destruct (game g "hl2mp") eqn:E4; [apply game_true in E4; apply e_hl2dm; auto|apply game_false in E4].
  destruct (game g "pvkii") eqn:E5; [apply game_true in E5; apply e_pvkii; auto|apply game_false in E5].
  destruct (game g "." && e "MOCK_ENGINE") eqn:E6.
  { apply andb_true_iff in E6. rewrite game_true in E6. apply e_mock; auto; unf; tauto. }
  assert (N6 : ~ (EngSpec.named g "." /\ EngSpec.Eng e "MOCK_ENGINE")).
  { unf. intros [A B]. apply game_true in A. rewrite A, B in E6. discriminate. }
  destruct (s "ServerGameClients005") eqn:E7; [apply e_hl2dm_like; auto|apply e_sdk; auto].
  unf. congruence.
Qed.

Lemma Determine_sound e s p g : engine_is e s p g (mm_DetermineBackendS1 e s p g).
Proof.
  unfold mm_DetermineBackendS1.
  destruct (e "VEngineServer023") eqn:V23.
  - destruct (e "EngineTraceServer004") eqn:T; cbn [negb];
      [|apply TF2branch_sound; unf; left; split; [exact V23|congruence]].
    assert (C : csgo_like e) by (split; assumption).
    destruct (e "IEngineSoundServer004") eqn:S4.
    { destruct (game g "doi" || p "doi_gamerules_data") eqn:D.
      - apply e_doi; auto. unf. apply orb_true_iff in D. rewrite game_true in D. tauto.
      - apply e_ins; auto. unf. apply orb_false_iff in D. rewrite game_false in D. intuition congruence. }
    assert (NS : ~ EngSpec.Eng e "IEngineSoundServer004") by (unf; congruence).
    destruct (s "ServerGameDLL010") eqn:D10; [apply e_bms; auto|].
    assert (ND : ~ EngSpec.Srv s "ServerGameDLL010") by (unf; congruence).
    destruct (s "VSERVERTOOLS003") eqn:ST; [apply e_blade; auto|].
    assert (NT : ~ EngSpec.Srv s "VSERVERTOOLS003") by (unf; congruence).
    destruct (game g "vietnam") eqn:VN; [apply e_mcv; auto; apply game_true; exact VN|].
    apply e_csgo; auto. apply game_false; exact VN.
  - assert (N23 : ~ f023 e) by (unf; congruence).
    destruct (e "VEngineServer022" && e "VEngineCvar007") eqn:V22.
    + assert (F : f022 e) by (apply andb_true_iff in V22; unf; tauto).
      destruct (e "EngineTraceServer004") eqn:T.
      * assert (W : swarm_like e) by (split; assumption).
        destruct (e "XboxSystemInterface001") eqn:X; [apply e_swarm; auto|].
        assert (NX : ~ EngSpec.Eng e "XboxSystemInterface001") by (unf; congruence).
        destruct (game g "portal2" || p "baseportalcombatweapon") eqn:D.
        -- apply e_portal2; auto. unf. apply orb_true_iff in D. rewrite game_true in D. tauto.
        -- apply e_oldblade; auto. unf. apply orb_false_iff in D. rewrite game_false in D. intuition congruence.
      * assert (W : l4d_like e) by (split; [assumption|unf; congruence]).
        destruct (e "VPrecacheSystem001") eqn:X; [|apply e_l4d; auto; unf; congruence].
        destruct (s "ServerGameTags002") eqn:Y; [apply e_nd; auto|].
        assert (NY : ~ EngSpec.Srv s "ServerGameTags002") by (unf; congruence).
        destruct (game g "contagion" || p "Contagion_Chat_All") eqn:D.
        -- apply e_contagion; auto. unf. apply orb_true_iff in D. rewrite game_true in D. tauto.
        -- apply e_l4d2; auto. unf. apply orb_false_iff in D. rewrite game_false in D. intuition congruence.
    + assert (N22 : ~ f022 e) by (intros (_ & A & B); unf; rewrite A, B in V22; discriminate).
      destruct (e "VEngineServer021") eqn:V21; [|apply e_unknown; auto; unf; intuition congruence].
      assert (F : f021 e) by (unfold f021; auto).
      destruct (e "VEngineCvar004") eqn:C4.
      * assert (O : orange_box e) by (split; assumption).
        destruct (e "VModelInfoServer002") eqn:M2.
        { destruct (game g "pm" || p "DT_PMPlayerResource") eqn:D.
          - apply e_bgt; auto. unf. apply orb_true_iff in D. rewrite game_true in D. tauto.
          - apply e_ep2; auto. unf. apply orb_false_iff in D. rewrite game_false in D. intuition congruence. }
        assert (NM : ~ EngSpec.Eng e "VModelInfoServer002") by (unf; congruence).
        destruct (e "VModelInfoServer003") eqn:M3; [|apply e_unknown; auto; unf; intuition congruence].
        destruct (e "VFileSystem017") eqn:FS; [apply e_eye; auto|].
        apply TF2branch_sound. right. unf. repeat split; auto; congruence.
      * destruct (e "VModelInfoServer001" && (e "VEngineCvar003" || e "VEngineCvar002")) eqn:M1.
        -- assert (O : old e).
           { apply andb_true_iff in M1. rewrite orb_true_iff in M1. unf. repeat split; try tauto; congruence. }
           destruct (game g ".") eqn:D; [apply e_darkm; auto; apply game_true; exact D|].
           apply e_ep1; auto. apply game_false; exact D.
        -- apply e_unknown; auto; [unf; intuition congruence|].
           unf. intros (_ & _ & A & B). rewrite A in M1. destruct B as [B|B]; rewrite B in M1; [discriminate|].
           rewrite orb_true_r in M1. discriminate.
Qed.

(** The rows of the table exclude each other. *)
Lemma fam_excl e :
  (csgo_like e -> ~ swarm_like e /\ ~ l4d_like e /\ ~ orange_box e /\ ~ old e /\ ~ valve_ob e) /\
  (swarm_like e -> ~ l4d_like e /\ ~ orange_box e /\ ~ old e /\ ~ valve_ob e) /\
  (l4d_like e -> ~ orange_box e /\ ~ old e /\ ~ valve_ob e) /\
  (orange_box e -> ~ old e) /\ (old e -> ~ valve_ob e) /\
  (valve_ob e -> orange_box e -> ~ EngSpec.Eng e "VModelInfoServer002" /\ EngSpec.Eng e "VModelInfoServer003" /\ ~ EngSpec.Eng e "VFileSystem017").
Proof.
  unfold valve_ob, csgo_like, swarm_like, l4d_like, orange_box, old, f021. 
  assert (H : f022 e -> ~ f023 e) by (unfold f022; tauto). tauto.
Qed.

Lemma engine_is_unique e s p g b1 b2 : engine_is e s p g b1 -> engine_is e s p g b2 -> b1 = b2.
Proof.
  intros H1 H2. destruct (fam_excl e) as (A1 & A2 & A3 & A4 & A5 & A6).
  assert (U : ~ f023 e -> ~ f022 e -> ~ csgo_like e /\ ~ swarm_like e /\ ~ l4d_like e)
    by (unfold csgo_like, swarm_like, l4d_like; tauto).
  assert (UV : ~ f023 e -> valve_ob e -> orange_box e /\ EngSpec.Eng e "VModelInfoServer003") by (unfold valve_ob; tauto).
  assert (NI : forall x y, EngSpec.named g x -> EngSpec.named g y -> x = y) by (intros x y; apply named_inj).
  destruct H1; destruct H2; try reflexivity; exfalso; try tauto;
    match goal with
    | X : EngSpec.named g ?x, Y : EngSpec.named g ?y |- _ => specialize (NI _ _ X Y); discriminate NI
    end.
Qed.

(** For every set of interfaces, patterns and every game name, the backend is the one of
    the table. *)
Theorem C52_table : forall engine server pattern game_name b,
  mm_DetermineBackendS1 engine server pattern game_name = b <-> engine_is engine server pattern game_name b.
Proof.
  intros e s p g b. split.
  - intros <-. apply Determine_sound.
  - intros H. exact (engine_is_unique e s p g _ _ (Determine_sound e s p g) H).
Qed.
Print Assumptions C52_table.

Local Definition have (l : list string) (s : string) : bool := existsb (String.eqb s) l.
Example C52_table_ex :
  engine_is (have ["VEngineServer021"; "VEngineCvar004"; "VModelInfoServer003"]) (have []) (have ["DT_TFPlayerResource"])
            (list_ascii_of_string "mymod") TF2
  /\ mm_DetermineBackendS1 (have ["VEngineServer023"; "MOCK_ENGINE"]) (have []) (have []) (list_ascii_of_string ".") = Mock.
Proof. split; [apply C52_table|]; reflexivity. Qed.

(** A backend that was found has the library name of its engine, no two backends share one, and the
    others are never found. *)
Theorem C52_names : 
  (forall b, nth_error backend_names (value b) = library_of b) /\
  (forall b, b <> UNKNOWN -> exists n, nth_error backend_names (value b) = Some n) /\
  (forall b1 b2, b1 <> UNKNOWN -> nth_error backend_names (value b1) = nth_error backend_names (value b2) -> b1 = b2) /\
  nth_error backend_names (value UNKNOWN) = None /\
  (forall e s p g, ~ In (mm_DetermineBackendS1 e s p g) [Episode2Valve_OBSOLETE; DOTA; CS2; Deadlock]) /\
  (forall g, In (backend_s2 g) [Deadlock; CS2; DOTA]).
Proof.
  split; [intros []; reflexivity|]. split; [|split; [|split; [|split]]].
  - intros b Hb. destruct b; try congruence; eexists; reflexivity.
  - intros b1 b2 Hb H. destruct b1; try congruence; destruct b2; try reflexivity; discriminate H.
  - reflexivity.
  - intros e s p g. unfold mm_DetermineBackendS1, TF2branch.
    repeat match goal with |- context [if ?c then _ else _] => destruct c end;
      cbn; intuition discriminate.
  - intros g. unfold backend_s2.
    repeat match goal with |- context [if ?c then _ else _] => destruct c end; cbn; auto.
Qed.
Print Assumptions C52_names.

(** Which game it is, is known exactly when no family matches. *)
Theorem C52_unknown : forall e s p g, mm_DetermineBackendS1 e s p g = UNKNOWN ->
  forall s' p' g', mm_DetermineBackendS1 e s' p' g' = UNKNOWN.
Proof.
  intros e s p g H s' p' g'. apply C52_table in H. apply C52_table.
  inversion H; subst. apply e_unknown; assumption.
Qed.
Print Assumptions C52_unknown.

Lemma cstr_first b s : cstr b = Some s -> nth_error b 0 = Some (match s with [] => NUL | c :: _ => c end)
  /\ (forall c t, s = c :: t -> c <> NUL).
Proof.
  intros H. apply cstr_some in H. destruct H as (t & -> & Hn). destruct s as [|c s].
  - split; [reflexivity|discriminate].
  - split; [reflexivity|]. intros d u E. injection E as -> ->. intros ->. apply Hn; left; reflexivity.
Qed.

Lemma strncpy_small b v n : n <= length b -> length v < n -> ~ In NUL v ->
  exists b', strncpy b v n = Some b' /\ cstr b' = Some v /\ same_from n b b'.
Proof.
  intros Hb Hv Hn. unfold strncpy. rewrite (proj2 (Nat.leb_le _ _) Hb). eexists. split; [reflexivity|].
  rewrite firstn_all2 by lia. destruct (n - length v) as [|k] eqn:E; [lia|]. cbn [repeat app]. split.
  - apply cstr_intro; exact Hn.
  - assert (L : length (v ++ NUL :: repeat NUL k) = n) by (rewrite app_length; cbn; rewrite repeat_length; lia).
    replace (v ++ NUL :: repeat NUL k ++ skipn n b)%list with ((v ++ NUL :: repeat NUL k) ++ skipn n b)%list
      by (rewrite <- app_assoc; reflexivity).
    split.
    + rewrite app_length, L, skipn_length. lia.
    + rewrite skipn_app, L, Nat.sub_diag. rewrite (skipn_all2 (v ++ NUL :: repeat NUL k)%list) by (rewrite L; lia). reflexivity.
Qed.

Theorem C52_game_name : forall (args : list str) (appid : option N) (b : buf) size,
  8 <= size -> size <= length b -> (forall a, In a args -> ~ In NUL a) ->
  exists b' g, mm_GetGameName (Some args) appid b size = Some b' /\ cstr b' = Some g /\
               game_named args appid (size - 1) g /\ g <> [] /\ same_from size b b'.
Proof.
  intros args appid b size Hs Hb Hn. unfold mm_GetGameName.
  destruct (arg_value_total args (list_ascii_of_string "-game")) as (r & Hr).
  destruct (mm_GetCommandArgument_spec args (list_ascii_of_string "-game") b size r) as (b1 & E & Hc & Hsame); auto; [lia|].
  match goal with |- context [mm_GetCommandArgument ?a ?n ?bb ?z] => change (mm_GetCommandArgument a n bb z = Some (match r with None => false | Some _ => true end, Some b1)) in E end.
  rewrite E. clear E. cbn [fst snd].
  assert (L1 : size <= length b1) by (destruct Hsame as [<- _]; exact Hb).
  assert (Hdot : forall b0, same_from size b b0 -> cstr b0 = Some [] -> game_named args appid (size - 1) (list_ascii_of_string ".") ->
    exists b' g, (match nth_error b0 0 with Some c => if Ascii.eqb c NUL then strncpy b0 (list_ascii_of_string ".") size else Some b0 | None => None end) = Some b' /\
      cstr b' = Some g /\ game_named args appid (size - 1) g /\ g <> [] /\ same_from size b b').
  { intros b0 Hs0 Hc0 Hg. destruct (cstr_first _ _ Hc0) as (E & _). rewrite E. cbn.
    destruct (strncpy_small b0 (list_ascii_of_string ".") size) as (b2 & E2 & Hc2 & Hs2);
      [destruct Hs0 as [<- _]; exact Hb|cbn; lia|cbn; intuition discriminate|].
    cbn in E2. rewrite E2. exists b2, (list_ascii_of_string "."). repeat split; auto; try discriminate.
    - destruct Hs0, Hs2; congruence.
    - destruct Hs0, Hs2; congruence. }
  assert (Hkeep : forall b0 g, same_from size b b0 -> cstr b0 = Some g -> g <> [] -> game_named args appid (size - 1) g ->
    exists b' g, (match nth_error b0 0 with Some c => if Ascii.eqb c NUL then strncpy b0 (list_ascii_of_string ".") size else Some b0 | None => None end) = Some b' /\
      cstr b' = Some g /\ game_named args appid (size - 1) g /\ g <> [] /\ same_from size b b').
  { intros b0 g Hs0 Hc0 Hg0 Hg. destruct (cstr_first _ _ Hc0) as (E & Hne). rewrite E.
    destruct g as [|c g]; [congruence|]. destruct (Ascii.eqb_spec c NUL) as [-> | Hc1]; [destruct (Hne _ _ eq_refl); reflexivity|].
    exists b0, (c :: g). auto. }
  destruct r as [[v|]|].
  - destruct (firstn (size - 1) v) as [|c w] eqn:Ev.
    + apply (Hdot b1 Hsame Hc). apply (gn_bare _ _ _ (Some v)); [exact Hr|]. right. eauto.
    + apply (Hkeep b1 _ Hsame Hc); [discriminate|]. rewrite <- Ev. apply gn_arg; [exact Hr|congruence].
  - apply (Hdot b1 Hsame Hc). apply (gn_bare _ _ _ None); auto.
  - assert (Happ : forall n g, appid = Some n -> In (n, g) [(570%N, "dota"); (730%N, "csgo"); (1422450%N, "citadel")] ->
      exists b0, strncpy b1 (list_ascii_of_string g) size = Some b0 /\ cstr b0 = Some (list_ascii_of_string g) /\
        same_from size b b0 /\ list_ascii_of_string g <> [] /\ game_named args appid (size - 1) (list_ascii_of_string g)).
    { intros n g En Hi.
      assert (Hg : length (list_ascii_of_string g) < 8 /\ ~ In NUL (list_ascii_of_string g) /\ list_ascii_of_string g <> []).
      { destruct Hi as [H|[H|[H|[]]]]; injection H as <- <-; (split; [cbn; lia|split; [cbn; intuition discriminate|discriminate]]). }
      destruct Hg as (G1 & G2 & G3).
      destruct (strncpy_small b1 (list_ascii_of_string g) size) as (b2 & E2 & Hc2 & Hs2); [exact L1|lia|exact G2|].
      exists b2. split; [exact E2|]. split; [exact Hc2|]. split; [destruct Hsame, Hs2; split; congruence|]. split; [exact G3|].
      apply (gn_app _ _ _ n); auto. }
    destruct appid as [n|]; [|apply (Hdot b1 Hsame Hc); apply gn_none; [exact Hr|discriminate]].
    destruct (N.eq_dec n 570) as [-> | N1];
      [destruct (Happ 570%N "dota" eq_refl) as (b0 & E0 & K1 & K2 & K3 & K4); [left; reflexivity|]; change (copy_app (Some 570%N) b1 size = Some b0) in E0; rewrite E0; exact (Hkeep b0 _ K2 K1 K3 K4)|].
    destruct (N.eq_dec n 730) as [-> | N2];
      [destruct (Happ 730%N "csgo" eq_refl) as (b0 & E0 & K1 & K2 & K3 & K4); [right; left; reflexivity|]; change (copy_app (Some 730%N) b1 size = Some b0) in E0; rewrite E0; exact (Hkeep b0 _ K2 K1 K3 K4)|].
    destruct (N.eq_dec n 1422450) as [-> | N3];
      [destruct (Happ 1422450%N "citadel" eq_refl) as (b0 & E0 & K1 & K2 & K3 & K4); [right; right; left; reflexivity|]; change (copy_app (Some 1422450%N) b1 size = Some b0) in E0; rewrite E0; exact (Hkeep b0 _ K2 K1 K3 K4)|].
    assert (Hd : game_named args (Some n) (size - 1) (list_ascii_of_string ".")).
    { apply gn_none; [exact Hr|]. intros m Em. injection Em as <-. cbn. intuition congruence. }
    assert (Em : copy_app (Some n) b1 size = Some b1).
    { clear - N1 N2 N3. unfold copy_app. destruct n as [|q]; [reflexivity|].
      repeat (destruct q as [q|q|]; try reflexivity; try congruence). }
    rewrite Em. exact (Hdot b1 Hsame Hc Hd).
Qed.
Print Assumptions C52_game_name.

Example C52_game_name_ex :
  option_map cstr (mm_GetGameName (Some (map list_ascii_of_string ["srcds"; "-game"; "tf"; "+map"])) None (repeat "x"%char 16) 16)
    = Some (Some (list_ascii_of_string "tf")) /\
  option_map cstr (mm_GetGameName (Some [list_ascii_of_string "cs2"]) (Some 730%N) (repeat "x"%char 16) 16)
    = Some (Some (list_ascii_of_string "csgo")) /\
  option_map cstr (mm_GetGameName (Some [list_ascii_of_string "x"]) None (repeat "x"%char 16) 16)
    = Some (Some (list_ascii_of_string ".")).
Proof. repeat split; vm_compute; reflexivity. Qed.

(** The library which is loaded lies in the loader's own directory. *)
Lemma after_last_slash_some s r : after_last_slash s = Some r ->
  exists d, s = (d ++ SEP :: r)%list /\ ~ In SEP r.
Proof.
  revert r. induction s as [|c s IH]; intros r; cbn [after_last_slash]; [discriminate|].
  destruct (after_last_slash s) as [r'|] eqn:E.
  - intros [= <-]. destruct (IH _ eq_refl) as (d & -> & Hn). exists (c :: d). auto.
  - destruct (Ascii.eqb_spec c SEP) as [-> | Hc]; [|discriminate]. intros [= <-]. exists []. split; [reflexivity|].
    intros Hin. clear IH. induction s as [|x s IHs]; [destruct Hin|]. cbn [after_last_slash] in E.
    destruct (after_last_slash s) eqn:E'; [discriminate|].
    destruct (Ascii.eqb_spec x SEP) as [-> | Hx]; [discriminate|]. destruct Hin as [H|H]; [congruence|auto].
Qed.

Lemma after_last_slash_none s : after_last_slash s = None <-> ~ In SEP s.
Proof.
  induction s as [|c s IH]; cbn [after_last_slash]; [split; [intros _ []|reflexivity]|].
  destruct (after_last_slash s) as [r|] eqn:E.
  - split; [discriminate|]. intros H. exfalso. apply after_last_slash_some in E. destruct E as (d & -> & _).
    apply H. right. apply in_or_app; right; left; reflexivity.
  - destruct (Ascii.eqb_spec c SEP) as [-> | Hc].
    + split; [discriminate|]. intros H. destruct H. left; reflexivity.
    + split; [|reflexivity]. intros _ [H|H]; [congruence|]. apply (proj1 IH eq_refl H).
Qed.

Theorem C52_library : forall dir file size b, b <> UNKNOWN -> ~ In "/"%char file ->
  let own := (dir ++ "/"%char :: file)%list in
  length own < size ->
  exists name, library_of b = Some name /\
    mm_MetamodLibraryPath (Some own) size (value b) =
      Some (Some (firstn (size - 1) (dir ++ "/"%char :: list_ascii_of_string ("metamod." ++ name ++ ".so"))))%list.
Proof.
  intros dir file size b Hb Hf own Hl. destruct (proj1 (proj2 C52_names) b Hb) as (name & En). exists name. split; [rewrite <- (proj1 C52_names b); exact En|].
  unfold mm_MetamodLibraryPath. fold own.
  destruct (after_last_slash own) as [r|] eqn:E.
  2:{ apply after_last_slash_none in E. destruct E. unfold own. apply in_or_app; right; left; reflexivity. }
  apply after_last_slash_some in E. destruct E as (d & E & Hr).
  assert (Hd : dir = d /\ file = r).
  { unfold own in E. clear - E Hf Hr. revert d E. induction dir as [|x dir IH]; intros [|y d] E; cbn in E.
    - injection E as ->. auto.
    - injection E as _ ->. destruct Hf. apply in_or_app; right; left; reflexivity.
    - injection E as _ <-. destruct Hr. apply in_or_app; right; left; reflexivity.
    - injection E as -> E. destruct (IH d E) as [-> ->]. auto. }
  destruct Hd as [<- <-].
  assert (L : length own = length dir + S (length file)) by (unfold own; rewrite app_length; reflexivity).
  replace (length own <? length file) with false by (symmetry; apply Nat.ltb_ge; lia).
  rewrite En. do 2 f_equal.
  replace (length own - length file) with (length (dir ++ ["/"%char])%list) by (rewrite app_length; cbn [length]; lia).
  assert (Eo : own = ((dir ++ ["/"%char]) ++ file)%list) by (unfold own; rewrite <- app_assoc; reflexivity).
  rewrite Eo. rewrite firstn_app, firstn_all, Nat.sub_diag. cbn [firstn]. rewrite app_nil_r.
  assert (Et : (list_ascii_of_string "metamod." ++ list_ascii_of_string name ++ list_ascii_of_string ".so")%list
             = list_ascii_of_string ("metamod." ++ name ++ ".so")).
  { cbn [list_ascii_of_string String.append app]. do 8 f_equal. clear. induction name as [|c n IH]; [reflexivity|].
    cbn. f_equal. exact IH. }
  rewrite Et. 
  replace (dir ++ "/"%char :: list_ascii_of_string ("metamod." ++ name ++ ".so"))%list
    with ((dir ++ ["/"%char]) ++ list_ascii_of_string ("metamod." ++ name ++ ".so"))%list by (rewrite <- app_assoc; reflexivity).
  rewrite firstn_app. rewrite (firstn_all2 (dir ++ ["/"%char])%list) by (rewrite app_length; cbn [length]; lia).
  f_equal. f_equal. lia.
Qed.
Print Assumptions C52_library.

Example C52_library_ex :
  mm_MetamodLibraryPath (Some (list_ascii_of_string "/srv/tf/addons/metamod/bin/server.so")) 512 (value TF2)
  = Some (Some (list_ascii_of_string "/srv/tf/addons/metamod/bin/metamod.2.tf2.so")).
Proof. vm_compute. reflexivity. Qed.
