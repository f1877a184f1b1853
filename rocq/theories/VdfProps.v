(** C79: what the loading of plugins loads, and what it reports. *)
From Coq Require Import List Bool Arith ZArith Ascii String Lia.
From Verif Require Import ListModel StrModel StrSpec StrProofs RelModel RelSpec RelProofs RelProps PlFileModel PlFileSpec PlFileProofs PlFileProps EngModel
  PlugModel PlugSpec PlugProofs PlugRun PlugSafe PlugSafe2 PlugSafe3 PlugProps VdfModel VdfSpec VdfProofs.
Import ListNotations.
Local Open Scope list_scope.
Local Open Scope nat_scope.
Notation length := List.length.

Lemma count_app g a b : count g (a ++ b) = count g a + count g b.
Proof. unfold count. rewrite filter_app, app_length. reflexivity. Qed.
Lemma count_split os : forallb (fun o => negb (broken o)) os = true ->
  count skips os = count present os /\ count (fun o => present o || revived o) os = count present os /\
  count (fun o => newly o || revived o) os = count newly os.
Proof.
  induction os as [|o os IH]; intros H; [repeat split|]. cbn [forallb] in H. apply andb_prop in H. destruct H as [H1 H2]. destruct (IH H2) as (A & B & C).
  rewrite !count_cons, A, B, C. destruct o as [|[]| |[]]; try discriminate; cbn; auto.
Qed.

Section Props.
Variables (stat_ access_ : str -> bool) (baseFs : bool) (kv : str -> option (option str * option str)) (lib : st -> str -> loadinfo).
Variables (mod_path dir : str) (PATH_SIZE MAX_PATH : nat) (junk : nat -> buf).
Notation load_all := (mm_LoadPlugins stat_ access_ baseFs kv lib mod_path PATH_SIZE MAX_PATH junk).
Notation load_dir := (LoadVDFPluginsFromDir stat_ access_ baseFs kv lib mod_path MAX_PATH junk).

(** The surroundings: paths are proper, arrays have their sizes. *)
Definition surroundings : Prop :=
  (forall n, length (junk n) = n) /\ 0 < PATH_SIZE /\ ~ In NUL mod_path /\ normal mod_path /\ RelSpec.absolute dir /\ ~ In NUL dir /\ ~ In "\"%char dir /\ kv_ok kv.

(** The directory: exactly the files with the extension "vdf" are visited, in order,
    each relative to the game directory; its alias is set, its plugin loaded; the
    numbers count what was new and what was in the list. *)
Theorem C79_directory : surroundings -> forall w names w' total skipped,
  reachable (mgr w) -> Forall (fits mod_path dir MAX_PATH) names ->
  load_dir w dir (Some names) = Some (w', (total, skipped)) ->
  exists os, visits (vdf_visit stat_ baseFs kv mod_path dir) w (filter vdf_name names) w' os /\
    total = count newly os /\ skipped = count present os + count broken os /\
    n_running (mgr w') = n_running (mgr w) + count newly os + count revived os /\
    kept (mgr w) (mgr w') /\ reachable (mgr w').
Proof.
  intros (J & Sz & MN & NM & DA & D1 & D2 & KO) w names w' total skipped R F E. cbn [LoadVDFPluginsFromDir] in E.
  destruct (vdf_loop_spec stat_ access_ baseFs kv lib mod_path MAX_PATH junk J MN dir NM DA (conj D1 D2) KO names w None 0 0 w' total skipped R F E) as ((R' & K) & os & V & T & S & N).
  exists os. split; [exact V|]. split; [exact T|].
  assert (C : count skips os = count present os + count broken os /\ count (fun o => newly o || revived o) os = count newly os + count revived os).
  { clear. induction os as [|o os [A B]]; [split; reflexivity|]. rewrite !count_cons, A, B. destruct o as [|[]| |[]]; cbn; lia. }
  destruct C as [C1 C2]. split; [rewrite S, C1; reflexivity|]. split; [rewrite N, C2; lia|]. split; [exact K|exact R'].
Qed.

(** The whole: the lines of the file, then the directory.  The report is the last
    message. *)
Theorem C79_all : surroundings -> forall w contents entries w' total,
  reachable (mgr w) ->
  (forall c evs, contents = Some c -> LoadPluginsFromFile (junk 255) c = Some evs -> Forall sane_event evs) ->
  (forall names, entries = Some names -> Forall (fits mod_path dir MAX_PATH) names) ->
  load_all w contents dir entries = Some (w', total) ->
  exists evs w1 w2 os1 os2,
    (match contents with Some c => LoadPluginsFromFile (junk 255) c = Some evs | None => evs = [] end) /\
    visits (line_visit stat_ mod_path PATH_SIZE) w evs w1 os1 /\
    (match entries with
     | Some names => visits (vdf_visit stat_ baseFs kv mod_path dir) w1 (filter vdf_name names) w2 os2
     | None => w2 = tell (MNoDir dir) w1 /\ os2 = []
     end) /\
    total = count newly os1 + count newly os2 /\
    (let skipped := count present os1 + count revived os1 + count present os2 + count broken os2 in
     w' = tell (MReport total (negb (total =? 1)) skipped) w2) /\
    n_running (mgr w') = n_running (mgr w) + total + count revived os1 + count revived os2 /\
    kept (mgr w) (mgr w').
Proof.
  intros SU w contents entries w' total R FE FN E. pose proof SU as (J & Sz & MN & NM & DA & D1 & D2 & KO). unfold mm_LoadPlugins in E.
  destruct (load_from_file stat_ lib mod_path PATH_SIZE junk w contents) as [[w1 [ft fs]]|] eqn:E1; [|discriminate].
  destruct (LoadVDFPluginsFromDir stat_ access_ baseFs kv lib mod_path MAX_PATH junk w1 dir entries) as [[w2 [vt vs]]|] eqn:E2; [|discriminate].
  injection E as <- <-.
  assert (A1 : exists evs os1, (match contents with Some c => LoadPluginsFromFile (junk 255) c = Some evs | None => evs = [] end) /\
    visits (line_visit stat_ mod_path PATH_SIZE) w evs w1 os1 /\ ft = count newly os1 /\ fs = count present os1 + count revived os1 /\
    n_running (mgr w1) = n_running (mgr w) + count newly os1 + count revived os1 /\ kept (mgr w) (mgr w1) /\ reachable (mgr w1)).
  { unfold load_from_file in E1. destruct contents as [c|].
    - destruct (LoadPluginsFromFile (junk 255) c) as [evs|] eqn:P; [|discriminate].
      destruct (file_events_spec stat_ access_ kv lib mod_path PATH_SIZE junk J MN evs w 0 0 w1 ft fs R Sz (FE c evs eq_refl P) E1) as ((R1 & K1) & os & V & T & S & N).
      exists evs, os. split; [reflexivity|]. split; [exact V|]. split; [exact T|].
      assert (C : count (fun o => present o || revived o) os = count present os + count revived os /\ count (fun o => newly o || revived o) os = count newly os + count revived os).
      { clear. induction os as [|o os [A B]]; [split; reflexivity|]. rewrite !count_cons, A, B. destruct o as [|[]| |[]]; cbn; lia. }
      destruct C as [C1 C2]. rewrite C1 in S. rewrite C2 in N. split; [exact S|]. split; [lia|]. auto.
    - injection E1 as <- <- <-. exists [], []. split; [reflexivity|]. split; [constructor|]. split; [reflexivity|]. split; [reflexivity|]. split; [cbn; lia|]. split; [apply kept_refl|exact R]. }
  destruct A1 as (evs & os1 & P & V1 & T1 & S1 & N1 & K1 & R1).
  assert (PL : forall n, (n =? 0) || (1 <? n) = negb (n =? 1)) by (intros [|[|n]]; reflexivity).
  destruct entries as [names|].
  - destruct (C79_directory SU w1 names w2 vt vs R1 (FN names eq_refl) E2) as (os2 & V2 & T2 & S2 & N2 & K2 & R2).
    exists evs, w1, w2, os1, os2. split; [exact P|]. split; [exact V1|]. split; [exact V2|]. split; [lia|].
    split. { cbv zeta. rewrite PL, S1, S2, !Nat.add_assoc. reflexivity. }
    split; [cbn [tell mgr]; lia|]. cbn [tell mgr]. eapply kept_trans; eassumption.
  - cbn [LoadVDFPluginsFromDir] in E2. injection E2 as <- <- <-.
    exists evs, w1, (tell (MNoDir dir) w1), os1, []. split; [exact P|]. split; [exact V1|]. split; [split; reflexivity|]. split; [cbn; lia|].
    split. { cbv zeta. rewrite PL, S1. cbn [count filter length]. unfold count. cbn [filter length]. rewrite !Nat.add_0_r. reflexivity. }
    split; [cbn [tell mgr]; unfold count in *; cbn [filter length]; lia|]. exact K1.
Qed.

(** Without a failed plugin in the list the report is true: the first number is how
    many more plugins are loaded than before. *)
Theorem C79_report : surroundings -> forall w contents entries w' total,
  reachable (mgr w) ->
  (forall c evs, contents = Some c -> LoadPluginsFromFile (junk 255) c = Some evs -> Forall sane_event evs) ->
  (forall names, entries = Some names -> Forall (fits mod_path dir MAX_PATH) names) ->
  load_all w contents dir entries = Some (w', total) ->
  exists evs w1 w2 os1 os2 skipped,
    visits (line_visit stat_ mod_path PATH_SIZE) w evs w1 os1 /\
    (match entries with
     | Some names => visits (vdf_visit stat_ baseFs kv mod_path dir) w1 (filter vdf_name names) w2 os2
     | None => os2 = []
     end) /\
    w' = tell (MReport total (negb (total =? 1)) skipped) w2 /\
    (forallb (fun o => negb (broken o)) (os1 ++ os2) = true ->
     n_running (mgr w') = n_running (mgr w) + total /\ skipped = count present (os1 ++ os2)).
Proof.
  intros SU w contents entries w' total R FE FN E.
  destruct (C79_all SU w contents entries w' total R FE FN E) as (evs & w1 & w2 & os1 & os2 & P & V1 & V2 & T & M & N & K).
  eexists evs, w1, w2, os1, os2, _. split; [exact V1|]. split; [destruct entries; [exact V2|apply V2]|]. split; [exact M|].
  intros B. rewrite forallb_app in B. apply andb_prop in B. destruct B as [B1 B2].
  assert (Z : forall os, forallb (fun o => negb (broken o)) os = true -> count revived os = 0 /\ count broken os = 0).
  { clear. induction os as [|o os IH]; intros H; [split; reflexivity|]. cbn [forallb] in H. apply andb_prop in H. destruct H as [H1 H2]. destruct (IH H2) as [A C].
    rewrite !count_cons, A, C. destruct o as [|[]| |[]]; try discriminate; split; reflexivity. }
  destruct (Z _ B1) as [Z1 Z2], (Z _ B2) as [Z3 Z4]. rewrite count_app. split; lia.
Qed.

(** Nothing undefined happens: a history of the plugin manager without the findings
    of C42, libraries that behave, plugin names that are sane. *)
Theorem C79_defined : surroundings -> behaves lib -> forall ops s rs l o contents entries,
  guarded init ops -> run init ops = Some (s, rs) ->
  (forall c evs, contents = Some c -> LoadPluginsFromFile (junk 255) c = Some evs -> Forall sane_event evs) ->
  (forall names, entries = Some names -> Forall (fits mod_path dir MAX_PATH) names) ->
  exists w' total, load_all (mkW s l o) contents dir entries = Some (w', total).
Proof.
  intros SU BH ops s rs l o contents entries GU RU FE FN. pose proof SU as (J & Sz & MN & NM & DA & D1 & D2 & KO).
  assert (R : reachable s) by (exists ops, rs; exact RU).
  assert (SX : SafeX None s).
  { destruct (guarded_ok ops init init_Good init_Safe GU) as (s' & rs' & R' & S' & _). rewrite RU in R'. injection R' as -> _. exact S'. }
  unfold mm_LoadPlugins.
  assert (A : exists w1 t k, load_from_file stat_ lib mod_path PATH_SIZE junk (mkW s l o) contents = Some (w1, (t, k)) /\ reachable (mgr w1) /\ SafeX None (mgr w1)).
  { unfold load_from_file. destruct contents as [c|]; [|eexists _, _, _; split; [reflexivity|split; [exact R|exact SX]]].
    destruct (C49_pieces (junk 255) c (J 255)) as (ps & es & P & _ & _). rewrite P.
    destruct (file_events_defined stat_ access_ kv lib mod_path PATH_SIZE junk J MN _ (mkW s l o) 0 0 R SX BH Sz (FE c _ eq_refl P)) as (w1 & [t k] & E & S1).
    destruct (file_events_spec stat_ access_ kv lib mod_path PATH_SIZE junk J MN _ (mkW s l o) 0 0 w1 t k R Sz (FE c _ eq_refl P) E) as ((R1 & _) & _).
    exists w1, t, k. auto. }
  destruct A as (w1 & t & k & -> & R1 & S1).
  destruct entries as [names|]; cbn [LoadVDFPluginsFromDir]; [|eauto].
  destruct (vdf_loop_defined stat_ access_ baseFs kv lib mod_path MAX_PATH junk J MN dir NM DA (conj D1 D2) KO names w1 None 0 0 R1 S1 BH (FN names eq_refl)) as (w2 & [t2 k2] & ->).
  eauto.
Qed.
End Props.
Print Assumptions C79_directory.
Print Assumptions C79_all.
Print Assumptions C79_report.
Print Assumptions C79_defined.

(** ** A game directory with three VDF files *)
Definition x_mod : str := f_ "/srv/tf".
Definition x_dir : str := f_ "/srv/tf/addons/metamod".
Definition x_kv (rel : str) : option (option str * option str) :=
  if str_eqb rel (f_ "addons/metamod/sm.vdf") then Some (Some (f_ "addons/sm/bin/sm_mm"), Some (f_ "sm"))
  else if str_eqb rel (f_ "addons/metamod/Stripper.VDF") then Some (Some (f_ "/opt/stripper.so"), None)
  else if str_eqb rel (f_ "addons/metamod/none.vdf") then Some (None, Some (f_ "x"))
  else None.
Definition x_names : list str := map f_ [".."; "sm.vdf"; "readme.txt"; "vdf"; "Stripper.VDF"; "none.vdf"; "missing.vdf"]%string.
Definition x_file : str := f_ "; plugins" ++ NL :: f_ "cs addons/cs/cs_mm" ++ NL :: f_ "addons/sm/bin/sm_mm".
(** every library gives an object that is not given out yet *)
Definition top (s : st) : nat := fold_right (fun p n => match p_api p with Some x => Nat.max x n | None => n end) 0 (listed s).
Definition x_lib (s : st) (f : str) : loadinfo := lib_ (S (top s)) [] (negb (ends_with f (f_ "bad.so"))).
Definition x_junk (n : nat) : buf := repeat "x"%char n.

Lemma top_le l p x : In p l -> p_api p = Some x -> x <= fold_right (fun p n => match p_api p with Some x => Nat.max x n | None => n end) 0 l.
Proof.
  induction l as [|q l IH]; intros I A; [destruct I|]. cbn [fold_right]. destruct I as [->|I].
  - rewrite A. lia.
  - specialize (IH I A). destruct (p_api q); lia.
Qed.
Lemma x_behaves : behaves x_lib.
Proof.
  intros s f. split; [intros c []|]. intros x p [E|E] Ip A; cbn in E; [|discriminate]. injection E as <-.
  pose proof (top_le (listed s) p _ Ip A). unfold top in *. lia.
Qed.
Lemma nul_dec s : existsb (Ascii.eqb NUL) s = false -> ~ In NUL s.
Proof. intros E I. assert (existsb (Ascii.eqb NUL) s = true) by (apply existsb_exists; exists NUL; split; [exact I|reflexivity]). congruence. Qed.
Lemma char_dec c s : existsb (Ascii.eqb c) s = false -> ~ In c s.
Proof. intros E I. assert (existsb (Ascii.eqb c) s = true) by (apply existsb_exists; exists c; split; [exact I|apply Ascii.eqb_refl]). congruence. Qed.
Lemma x_sane f : f <> [] -> existsb (Ascii.eqb NUL) f = false -> existsb (Ascii.eqb "%") f = false -> sane f.
Proof. intros A B C. split; [exact A|]. split; [apply char_dec; exact B|]. intros _. apply char_dec. exact C. Qed.
Lemma x_normal : normal x_mod.
Proof.
  exists [f_ "srv"], (f_ "tf"). split; [reflexivity|]. split.
  - constructor; [|constructor]. split; [discriminate|split; discriminate].
  - left. split; [discriminate|split; discriminate].
Qed.
Lemma x_surroundings : surroundings x_kv x_mod x_dir 300 x_junk.
Proof.
  split; [intros n; apply repeat_length|]. split; [lia|]. split; [apply char_dec; reflexivity|]. split; [exact x_normal|].
  split; [eexists; reflexivity|]. split; [apply char_dec; reflexivity|]. split; [apply char_dec; reflexivity|].
  intros rel f a E. unfold x_kv in E. destruct (str_eqb rel _).
  { injection E as <- <-. split; [apply x_sane; [discriminate|reflexivity|reflexivity]|]. split; [apply char_dec; reflexivity|]. intros x E. injection E as <-. apply char_dec. reflexivity. }
  destruct (str_eqb rel _).
  { injection E as <- <-. split; [apply x_sane; [discriminate|reflexivity|reflexivity]|]. split; [apply char_dec; reflexivity|]. intros x E. discriminate. }
  destruct (str_eqb rel _); discriminate.
Qed.
Lemma x_fits : Forall (fits x_mod x_dir 260) x_names.
Proof.
  unfold x_names. cbn [map]. repeat (constructor; [split; [apply char_dec; reflexivity|]; split; [apply char_dec; reflexivity|]; cbn; lia|]). constructor.
Qed.
Notation x_all := (mm_LoadPlugins (fun _ => false) (fun _ => false) true x_kv x_lib x_mod 300 260 x_junk).
Definition x_w0 : world := mkW init [] [].

(** the hypotheses hold for it, and this is what comes out: two from the file, one
    more from the directory, "sm_mm" is already loaded then *)
Example C79_example :
  surroundings x_kv x_mod x_dir 300 x_junk /\ behaves x_lib /\ Forall (fits x_mod x_dir 260) x_names /\ reachable (mgr x_w0) /\ guarded init [] /\
  (forall evs, LoadPluginsFromFile (x_junk 255) x_file = Some evs -> Forall sane_event evs) /\
  exists w', x_all x_w0 (Some x_file) x_dir (Some x_names) = Some (w', 3) /\
    out w' = [MReport 3 true 1] /\ map p_file (listed (mgr w')) = map f_ ["/srv/tf/addons/cs/cs_mm.so"; "/srv/tf/addons/sm/bin/sm_mm.so"; "/opt/stripper.so"]%string /\
    als w' = [(f_ "cs", f_ "addons/cs/cs_mm"); (f_ "sm", f_ "addons/sm/bin/sm_mm")].
Proof.
  split; [exact x_surroundings|]. split; [exact x_behaves|]. split; [exact x_fits|]. split; [exists [], []; reflexivity|]. split; [exact I|].
  split. { intros evs E. vm_compute in E. injection E as <-. repeat (constructor; [first [exact I|apply x_sane; [discriminate|reflexivity|reflexivity]]|]). constructor. }
  eexists. split; [vm_compute; reflexivity|]. split; [vm_compute; reflexivity|]. split; vm_compute; reflexivity.
Qed.

(** ** Failed plugins in the list: what the report says of them is not true. *)
Definition y_names : list str := [f_ "sm.vdf"].
Definition y_lib (ok : bool) (s : st) (f : str) : loadinfo := lib_ (S (top s)) [] ok.
Notation y_all := (fun ok => mm_LoadPlugins (fun _ => false) (fun _ => false) true x_kv (y_lib ok) x_mod 300 260 x_junk).
(** A plugin from a VDF file that failed before and fails again is reported as already
    loaded; one that failed before and is loaded now is not counted as loaded but as
    already loaded, from the directory as from the file. *)
Theorem C79_report_refuted :
  exists w1, y_all false x_w0 None x_dir (Some y_names) = Some (w1, 0) /\ n_running (mgr w1) = 0 /\
    (exists w2, y_all false w1 None x_dir (Some y_names) = Some (w2, 0) /\ n_running (mgr w2) = 0 /\ List.last (out w2) (MNoDir []) = MReport 0 true 1) /\
    (exists w2, y_all true w1 None x_dir (Some y_names) = Some (w2, 0) /\ n_running (mgr w2) = 1 /\ List.last (out w2) (MNoDir []) = MReport 0 true 1) /\
    (exists w2, y_all true w1 (Some (f_ "addons/sm/bin/sm_mm")) x_dir (Some []) = Some (w2, 0) /\ n_running (mgr w2) = 1 /\ List.last (out w2) (MNoDir []) = MReport 0 true 1).
Proof.
  eexists. split; [vm_compute; reflexivity|]. split; [vm_compute; reflexivity|]. repeat split; eexists; (split; [vm_compute; reflexivity|]); split; vm_compute; reflexivity.
Qed.
Print Assumptions C79_report_refuted.

(** An empty "file" in a VDF file is not guarded against as it is in the list. *)
Theorem C79_empty_refuted :
  mm_LoadPlugins (fun _ => false) (fun _ => false) true (fun _ => Some (Some [], None)) x_lib x_mod 300 260 x_junk x_w0 None x_dir (Some y_names) = None /\
  exists w', mm_LoadPlugins (fun _ => false) (fun _ => false) true (fun _ => None) x_lib x_mod 300 260 x_junk x_w0 (Some [QUOTE; QUOTE]) x_dir (Some []) = Some (w', 0).
Proof. split; [vm_compute; reflexivity|]. eexists. vm_compute. reflexivity. Qed.
Print Assumptions C79_empty_refuted.

(** A long path: the list loads the plugin, a VDF file only a part of its path. *)
Definition z_long : str := f_ "addons/" ++ repeat "p"%char 247.
Theorem C79_long_refuted : exists full,
  (exists w', mm_LoadPlugins (fun _ => false) (fun _ => false) true (fun _ => Some (Some z_long, None)) x_lib x_mod 300 260 x_junk x_w0 (Some z_long) x_dir (Some []) = Some (w', 1) /\
     map p_file (listed (mgr w')) = [full] /\ n_running (mgr w') = 1) /\
  exists w' g, mm_LoadPlugins (fun _ => false) (fun _ => false) true (fun _ => Some (Some z_long, None)) x_lib x_mod 300 260 x_junk x_w0 None x_dir (Some y_names) = Some (w', 0) /\
     map p_file (listed (mgr w')) = [g] /\ g = firstn 254 full /\ full <> g /\ n_running (mgr w') = 0.
Proof.
  eexists. split.
  - eexists. split; [vm_compute; reflexivity|]. split; [vm_compute; reflexivity|vm_compute; reflexivity].
  - eexists _, _. split; [vm_compute; reflexivity|]. split; [vm_compute; reflexivity|]. split; [vm_compute; reflexivity|]. split; [vm_compute; discriminate|vm_compute; reflexivity].
Qed.
Print Assumptions C79_long_refuted.
