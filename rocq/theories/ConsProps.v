(** C64: the console command "meta" does what its reply says, to the plugin it names. *)
From Coq Require Import List ZArith Bool Arith Ascii String Lia.
From Verif Require Import Base ListModel StrModel StrSpec StrProofs PlugModel PlugSpec PlugProofs PlugRun PlugProps PlugSafe PlugSafe3 PlugSafeProps
  PlFileModel PlFileSpec PlFileProps ConsModel ConsSpec ConsProofs.
Import ListNotations.
Local Open Scope list_scope.
Local Open Scope nat_scope.
Notation length := List.length.

Lemma str_eqb_refl x : str_eqb x x = true.
Proof. unfold str_eqb. destruct (list_eq_dec ascii_dec x x); congruence. Qed.
Lemma str_eqb_ne x y : x <> y -> str_eqb x y = false.
Proof. unfold str_eqb. destruct (list_eq_dec ascii_dec x y); congruence. Qed.
Definition ready_ (e : env) : Prop := e_bridged e = false \/ e_complete e = true.
Lemma meta_ready e : ready_ e -> e_bridged e && negb (e_complete e) = false.
Proof. intros [-> | ->]; [reflexivity|apply andb_false_r]. Qed.
Local Ltac go R := unfold meta; rewrite (meta_ready _ R); cbn -[atoi].

(** A number that people write in decimal is the id that is used, with or without
    the zero that "meta list" puts in front of it. *)
Theorem C64_number : forall n, is_int n -> atoi (numeral n) = n /\ ((0 <= n)%Z -> atoi (two_digits n) = n).
Proof.
  intros n H. split; [apply atoi_numeral; exact H|]. intros P. unfold two_digits. destruct (n <? 10)%Z; [|apply atoi_numeral; exact H].
  rewrite <- (atoi_numeral n H) at 2. unfold atoi, numeral. fold (w_ (DecimalString.NilEmpty.string_of_int (Z.to_int n))). rewrite to_int_sign. destruct (Z.ltb_spec n 0); [lia|].
  cbn [DecimalString.NilEmpty.string_of_int]. destruct (uint_first (N.to_uint (Z.to_N n)) (to_uint_nonnil _)) as (c & r & E & S1 & S2 & S3).
  unfold strtol. rewrite E. cbn [drop_space]. change (isspace "0") with false. cbn iota. change (Ascii.eqb "0" "-") with false. change (Ascii.eqb "0" "+") with false. cbn iota.
  rewrite S1, S2, S3. reflexivity.
Qed.
Print Assumptions C64_number.
(** Other texts are numbers too: the rest of a name is not looked at, and large
    numbers are taken modulo 2 ^ 32. *)
Theorem C64_number_refuted : atoi (w_ "3d_sound") = 3%Z /\ atoi (w_ "4294967297") = 1%Z.
Proof. split; reflexivity. Qed.
Print Assumptions C64_number_refuted.

(** *** Commands that take an id *)
Theorem C64_pause : forall e s al n s' al' r, ready_ e -> reachable s -> is_int n ->
  meta e s al [w_ "pause"; numeral n] = Some (s', al', r) ->
  al' = al /\ ((r = PPaused n /\ turned n Running Paused (view s) (view s')) \/ (r = PPauseFailed /\ view s' = view s)).
Proof.
  intros e s al n s' al' r R Rs Hn. go R. rewrite (atoi_numeral n Hn). destruct (Pause s n (e_cb e)) as [[s1 b]|] eqn:P; [|discriminate]. cbn. intros E. injection E as <- <- <-.
  split; [reflexivity|]. pose proof (Pause_view s (proj1 (reachable_Good _ Rs)) _ _ _ _ P) as V. destruct b; auto.
Qed.
Print Assumptions C64_pause.
Theorem C64_unpause : forall e s al n s' al' r, ready_ e -> reachable s -> is_int n ->
  meta e s al [w_ "unpause"; numeral n] = Some (s', al', r) ->
  al' = al /\ ((r = PUnpaused n /\ turned n Paused Running (view s) (view s')) \/ (r = PUnpauseFailed /\ view s' = view s)).
Proof.
  intros e s al n s' al' r R Rs Hn. go R. rewrite (atoi_numeral n Hn). destruct (Unpause s n (e_cb e)) as [[s1 b]|] eqn:P; [|discriminate]. cbn. intros E. injection E as <- <- <-.
  split; [reflexivity|]. pose proof (Unpause_view s (proj1 (reachable_Good _ Rs)) _ _ _ _ P) as V. destruct b; auto.
Qed.
Print Assumptions C64_unpause.
(** "force_unload" fails only if there is no such plugin. *)
Theorem C64_force_unload : forall e s al n s' al' r, ready_ e -> reachable s -> is_int n ->
  meta e s al [w_ "force_unload"; numeral n] = Some (s', al', r) ->
  al' = al /\ ((r = PForced n /\ dropped n (view s) (view s')) \/ (r = PForceFailed /\ view s' = view s /\ absent n (view s))).
Proof.
  intros e s al n s' al' r R Rs Hn. go R. rewrite (atoi_numeral n Hn). destruct (Unload s n true (e_cb e)) as [[s1 b]|] eqn:P; [|discriminate]. cbn. intros E. injection E as <- <- <-.
  split; [reflexivity|]. destruct (Unload_view s (proj1 (reachable_Good _ Rs)) _ _ _ _ _ P) as [V W]. destruct b; [auto|]. right. auto.
Qed.
Print Assumptions C64_force_unload.
Lemma numeral_letter n : is_letter (numeral n) = false.
Proof.
  unfold numeral. rewrite to_int_sign. destruct (n <? 0)%Z; [reflexivity|]. cbn [DecimalString.NilEmpty.string_of_int]. pose proof (to_uint_nonnil (Z.to_N n)) as N. destruct (N.to_uint (Z.to_N n)); [congruence|..]; reflexivity.
Qed.
Theorem C64_unload : forall e s al n s' al' r, ready_ e -> reachable s -> is_int n ->
  meta e s al [w_ "unload"; numeral n] = Some (s', al', r) ->
  al' = al /\ ((r = PUnloaded n /\ dropped n (view s) (view s')) \/ (r = PUnloadFailed /\ view s' = view s)).
Proof.
  intros e s al n s' al' r R Rs Hn. go R. rewrite (numeral_letter n), andb_false_r, (atoi_numeral n Hn). destruct (Unload s n false (e_cb e)) as [[s1 b]|] eqn:P; [|discriminate]. cbn. intros E. injection E as <- <- <-.
  split; [reflexivity|]. destruct (Unload_view s (proj1 (reachable_Good _ Rs)) _ _ _ _ _ P) as [V _]. destruct b; auto.
Qed.
Print Assumptions C64_unload.
(** A retried plugin keeps its number and file and moves to the end of the list. *)
Theorem C64_retry : forall e s al n s' al' r, ready_ e -> reachable s -> is_int n ->
  meta e s al [w_ "retry"; numeral n] = Some (s', al', r) ->
  al' = al /\ ((r = PRetried n /\ exists v1 f x y v2, view s = v1 ++ (n, f, x) :: v2 /\ ~ usable x /\ view s' = v1 ++ v2 ++ [(n, f, y)] /\ usable y) \/
               (r = PRetryFailed /\ view s' = view s)).
Proof.
  intros e s al n s' al' r R Rs Hn. go R. rewrite (atoi_numeral n Hn). destruct (Retry s n (e_li e) (e_cb e)) as [[s1 b]|] eqn:P; [|discriminate]. cbn. intros E. injection E as <- <- <-.
  split; [reflexivity|]. pose proof (Retry_view s (proj1 (reachable_Good _ Rs)) _ _ _ _ _ P) as V. destruct b; auto. left. split; [reflexivity|]. destruct V as (v1 & f & x & y & v2 & V1 & X & V2 & Y).
  exists v1, f, (Some x), (Some y), v2. split; [exact V1|]. split; [intros [C|C]; injection C as ->; discriminate|]. split; [exact V2|]. unfold usable. destruct y; try discriminate; auto.
Qed.
Print Assumptions C64_retry.
Theorem C64_clear : forall e s al rest s' al' r, ready_ e -> reachable s ->
  meta e s al (w_ "clear" :: rest) = Some (s', al', r) -> al' = al /\ r = PCleared /\ view s' = [].
Proof.
  intros e s al rest s' al' r R Rs. go R. unfold cmd_clear. destruct (UnloadAll (length (plugins s)) s (e_cbs e)) as [u|] eqn:U; [|discriminate].
  destruct (C47_unload_all s (e_cbs e) _ _ Rs (le_n _) U) as (s1 & -> & P). cbn. intros E. injection E as <- <- <-. repeat split. unfold view, listed. rewrite P. reflexivity.
Qed.
Print Assumptions C64_clear.

(** *** Commands that take a file *)
(** A name stands for the alias set last under it, otherwise for itself. *)
Theorem C64_named : forall hist file, resolve_alias (fold_left (fun m x => SetAlias m (fst x) (snd x)) hist []) file =
  match alias_of (rev hist) file with Some v => v | None => file end.
Proof. intros hist file. unfold resolve_alias. rewrite (proj1 (C44_alias_map hist file)). reflexivity. Qed.
Print Assumptions C64_named.
(** The path that is meant, see C57. *)
Theorem C64_path : forall e file, file <> [] -> ~ absolute file -> 255 <= length (e_junk e) -> ~ In NUL (e_dir e ++ file) ->
  exists ext, full_path e file = Some (slashed (firstn 254 (e_dir e ++ "/"%char :: file ++ ext))) /\
    ((exists x, extension file x) -> ext = []) /\
    ((forall x, ~ extension file x) -> ext = if e_exists e (slashed (firstn 254 (e_dir e ++ "/"%char :: file ++ w_ ".x64.so"))) then w_ ".x64.so" else w_ ".so").
Proof.
  intros e file NE NA L NN. assert (L' : 255 <= length (firstn 255 (e_junk e))) by (rewrite firstn_length; lia).
  destruct (C57_relative (e_exists e) (e_dir e) file (firstn 255 (e_junk e)) 255 NE NA (Nat.lt_0_succ _) L' NN) as (b' & k & ext & E & C & _ & _ & X1 & X2).
  exists ext. unfold full_path. rewrite E. cbn [fst]. split; [exact C|]. split; [exact X1|exact X2].
Qed.
Print Assumptions C64_path.

Theorem C64_load : forall e s al file s' al' r, ready_ e -> reachable s ->
  meta e s al [w_ "load"; file] = Some (s', al', r) ->
  exists path, full_path e (resolve_alias al file) = Some path /\ al' = al /\
    elsewhere path (view s') = elsewhere path (view s) /\
    match r with
    | PLoaded _ n => (exists x, In (n, path, x) (view s') /\ usable x) /\ (forall en, In en (view s) -> ~ same_path (snd (fst en)) path)
    | PAlready _ n => (exists f x, In (n, f, x) (view s') /\ usable x /\ same_path f path) /\ (exists en, In en (view s) /\ same_path (snd (fst en)) path)
    | PLoadFailed f => f = resolve_alias al file /\ forall n f x, In (n, f, x) (view s') -> same_path f path -> ~ usable x
    | _ => False
    end.
Proof.
  intros e s al file s' al' r R Rs. go R. destruct (full_path e (resolve_alias al file)) as [path|] eqn:FP; [|discriminate].
  destruct (resolve_pending true s) as [s1|] eqn:RP; [|discriminate]. pose proof (reachable_Good _ Rs) as GS. pose proof GS as (I & _ & _).
  destruct (resolve_pending_frame true s s1 (iv_pend _ I) RP) as [F1 _].
  pose proof (step_Good s OResolve s1 RNone GS) as G1. cbn [step] in G1. rewrite RP in G1. specialize (G1 eq_refl). destruct G1 as [G1 _].
  rewrite <- (view_frame _ _ I F1). destruct (Load s1 path (e_li e)) as [[s2 [id aly]]|] eqn:L; [|discriminate].
  destruct (Load_Good _ _ _ _ _ _ G1 L) as [G2 _]. pose proof G2 as (I2 & ST2 & FI2).
  destruct (Load_view _ _ _ _ _ _ G1 L) as (EL & f & x & IN & CF & AL & ALT).
  destruct (find_id s2 (plugins s2) id) as [o|] eqn:Fd; [|discriminate]. apply find_id_spec in Fd.
  assert (Ex : exists a p, In a (plugins s2) /\ getp s2 a = Some p /\ vw p = (id, f, Some x)).
  { rewrite view_gv in IN. apply in_flat_map in IN. destruct IN as (a & Ia & Ie). unfold gv in Ie. destruct (getp s2 a) as [p|] eqn:G; [|destruct Ie]. destruct Ie as [Ie|[]]. eauto. }
  destruct Ex as (a & p & Ia & G & V). injection V as V1 V2 V3.
  destruct o as [b|]; [|exfalso; exact (Fd a p Ia G V1)]. destruct Fd as (Ib & q & Q & Eq).
  assert (b = a) by (apply (iv_ids _ I2 b a q p); auto; congruence). subst b. assert (q = p) by congruence. subst q.
  rewrite G, V3. pose proof (iv_id _ I2 a p Ia G) as POS. rewrite V1 in POS. destruct (Z.ltb_spec id 1); [lia|]. cbn [orb].
  assert (ONE : forall n g z, In (n, g, z) (view s2) -> same_path g path -> z = Some x).
  { intros n g z J SP. rewrite view_gv in J. apply in_flat_map in J. destruct J as (c & Ic & J). unfold gv in J. destruct (getp s2 c) as [t|] eqn:T; [|destruct J]. destruct J as [J|[]]. injection J as J1 J2 J3.
    assert (c = a) by (apply (FI2 c a t p); auto; rewrite J2, V2; unfold same_path in SP; congruence). subst c. congruence. }
  destruct (loaded x) eqn:LX; cbn [negb].
  - destruct (p_api p) as [api|]; [|discriminate]. destruct (callable s2 p); [|discriminate]. cbn. intros E. injection E as <- <- <-.
    assert (U : usable (Some x)) by (unfold usable; destruct x; try discriminate; auto).
    exists path. split; [reflexivity|]. split; [reflexivity|]. split; [exact EL|]. destruct aly; rewrite V1.
    + split; [exists f, (Some x); auto|]. destruct AL as [_ AL]. destruct (AL eq_refl) as (en & J1 & J2). exists en. auto.
    + split.
      * destruct ALT as [[VV LL]|(-> & _)]; [|exists (Some x); auto]. exfalso. assert (C : false = true) by (apply AL; exists (id, f, Some x); rewrite <- VV; auto). discriminate.
      * intros en J1 J2. assert (C : false = true) by (apply AL; eauto). discriminate.
  - intros E. injection E as <- <- <-. exists path. split; [reflexivity|]. split; [reflexivity|]. split; [exact EL|]. split; [reflexivity|].
    intros n g z J SP US. specialize (ONE n g z J SP). subst z. destruct US as [C|C]; injection C as ->; discriminate.
Qed.
Print Assumptions C64_load.

Lemma find_file_spec s path : forall l r, find_file s l path = Some r ->
  match r with
  | Some n => exists a p, In a l /\ getp s a = Some p /\ p_file p = path /\ p_id p = n
  | None => forall a p, In a l -> getp s a = Some p -> p_file p <> path
  end.
Proof.
  induction l as [|a l IH]; intros r E; cbn [find_file] in E; [injection E as <-; intros a p []|]. destruct (getp s a) as [p|] eqn:G; [|discriminate].
  unfold str_eqb in E. destruct (list_eq_dec ascii_dec (p_file p) path) as [D|D].
  - injection E as <-. exists a, p. auto using in_eq.
  - specialize (IH r E). destruct r as [n|].
    + destruct IH as (b & q & Ib & Q). exists b, q. split; [right; exact Ib|exact Q].
    + intros b q [<-|Ib] Q; [congruence|]. exact (IH b q Ib Q).
Qed.
(** "meta unload" with a name that starts with a letter means the plugin with
    exactly that path. *)
Theorem C64_unload_name : forall e s al c name s' al' r, ready_ e -> reachable s -> isalpha c = true ->
  meta e s al [w_ "unload"; c :: name] = Some (s', al', r) ->
  exists path, full_path e (resolve_alias al (c :: name)) = Some path /\ al' = al /\
    match r with
    | PUnloaded n => exists v1 x v2, view s = v1 ++ (n, path, x) :: v2 /\ view s' = v1 ++ v2
    | PUnloadFailed => view s' = view s /\ exists n x, In (n, path, x) (view s)
    | PNoFile p => p = path /\ s' = s /\ forall n x, ~ In (n, path, x) (view s)
    | _ => False
    end.
Proof.
  intros e s al c name s' al' r R Rs HL. unfold meta. rewrite (meta_ready _ R). cbn -[atoi cmd_unload]. unfold cmd_unload. rewrite (letter_zero c name HL). cbn [is_letter]. rewrite HL. cbn [Z.eqb andb].
  destruct (full_path e (resolve_alias al (c :: name))) as [path|]; [|discriminate]. pose proof (reachable_Good _ Rs) as GS. pose proof GS as (I & _ & FI).
  destruct (find_file s (plugins s) path) as [o|] eqn:Fd; [|discriminate]. apply find_file_spec in Fd. destruct o as [n|].
  - destruct Fd as (a & p & Ia & G & FP & Ip). pose proof (iv_id _ I a p Ia G) as POS. destruct (Z.eqb_spec n 0); [lia|].
    destruct (Unload s n false (e_cb e)) as [[s1 b]|] eqn:U; [|discriminate]. cbn. intros E. injection E as <- <- <-. exists path. split; [reflexivity|]. split; [reflexivity|].
    destruct (Unload_view s I _ _ _ _ _ U) as [V _]. destruct b.
    + destruct V as (v1 & f & x & v2 & V1 & V2). exists v1, x, v2. split; [|exact V2]. rewrite V1. do 3 f_equal.
      assert (J : In (n, f, x) (view s)) by (rewrite V1; apply in_or_app; right; left; reflexivity).
      rewrite view_gv in J. apply in_flat_map in J. destruct J as (d & Id & J). unfold gv in J. destruct (getp s d) as [t|] eqn:T; [|destruct J]. destruct J as [J|[]]. injection J as J1 J2 J3.
      assert (d = a) by (apply (iv_ids _ I d a t p); auto; congruence). subst d. congruence.
    + split; [exact V|]. exists n, (p_status p). pose proof (in_view s a p Ia G) as J. unfold vw in J. rewrite Ip, FP in J. exact J.
  - cbn. intros E. injection E as <- <- <-. exists path. split; [reflexivity|]. split; [reflexivity|]. split; [reflexivity|]. split; [reflexivity|].
    intros n x J. rewrite view_gv in J. apply in_flat_map in J. destruct J as (d & Id & J). unfold gv in J. destruct (getp s d) as [t|] eqn:T; [|destruct J]. destruct J as [J|[]]. injection J as J1 J2 J3. exact (Fd d t Id T J2).
Qed.
Print Assumptions C64_unload_name.
(** So the name by which a plugin was loaded finds that plugin again. *)
Theorem C64_load_unload : forall e1 e2 s al c name s1 al1 t n s2 al2 r, ready_ e1 -> ready_ e2 -> reachable s -> reachable s1 -> isalpha c = true ->
  (forall f, full_path e2 f = full_path e1 f) ->
  meta e1 s al [w_ "load"; c :: name] = Some (s1, al1, PLoaded t n) ->
  meta e2 s1 al1 [w_ "unload"; c :: name] = Some (s2, al2, r) ->
  r = PUnloaded n \/ r = PUnloadFailed.
Proof.
  intros e1 e2 s al c name s1 al1 t n s2 al2 r R1 R2 Rs Rs1 HL FP E1 E2.
  destruct (C64_load _ _ _ _ _ _ _ R1 Rs E1) as (path & P & -> & _ & (x & IN & US) & _).
  destruct (C64_unload_name _ _ _ _ _ _ _ _ R2 Rs1 HL E2) as (path2 & P2 & _ & C). rewrite FP, P in P2. injection P2 as <-.
  destruct r; try contradiction; auto.
  - left. f_equal. destruct C as (v1 & y & v2 & V1 & _). assert (J : In (id, path, y) (view s1)) by (rewrite V1; apply in_or_app; right; left; reflexivity).
    pose proof (reachable_Good _ Rs1) as (I & _ & FI). rewrite view_gv in J, IN. apply in_flat_map in J, IN. destruct J as (a & Ia & J). destruct IN as (b & Ib & K). unfold gv in J, K.
    destruct (getp s1 a) as [p|] eqn:G; [|destruct J]. destruct J as [J|[]]. destruct (getp s1 b) as [q|] eqn:Q; [|destruct K]. destruct K as [K|[]]. injection J as J1 J2 _. injection K as K1 K2 _.
    assert (a = b) by (apply (FI a b p q); auto; congruence). subst b. congruence.
  - destruct C as (_ & _ & N). exfalso. exact (N n x IN).
Qed.
Print Assumptions C64_load_unload.

(** *** Everything else *)
(** The other commands change nothing, except that "alias" with a value changes
    the aliases (C44) and "refresh" reads the plugin files (C49, C50). *)
Definition acting : list str := map w_ ["refresh"; "pause"; "unpause"; "load"; "alias"; "aliases"; "unload"; "force_unload"; "clear"; "retry"]%string.
Theorem C64_reading : forall e s al args s' al' r, meta e s al args = Some (s', al', r) ->
  (match args with c :: _ => ~ In c acting | [] => True end) -> s' = s /\ al' = al.
Proof.
  intros e s al args s' al' r E N. unfold meta in E. destruct (e_bridged e && negb (e_complete e)); [injection E as <- <- _; auto|]. destruct args as [|c args]; [injection E as <- <- _; auto|].
  assert (K : forall w, In w acting -> str_eqb c w = false) by (intros w J; apply str_eqb_ne; intros ->; contradiction).
  cbv zeta in E.
  rewrite (K (w_ "refresh")), (K (w_ "pause")), (K (w_ "unpause")), (K (w_ "load")), (K (w_ "alias")), (K (w_ "aliases")), (K (w_ "unload")), (K (w_ "force_unload")), (K (w_ "clear")), (K (w_ "retry")) in E by (unfold acting; cbn [map In]; tauto).
  cbn [orb] in E.
  repeat match type of E with
  | (if ?b then _ else _) = _ => destruct b
  | (match ?x with Some _ => _ | None => _ end) = _ => destruct x; [|discriminate]
  | Some _ = Some _ => injection E as <- <- _; auto
  end.
Qed.
Print Assumptions C64_reading.
Theorem C64_alias : forall e s al k v s' al' r, ready_ e -> meta e s al [w_ "alias"; k; v] = Some (s', al', r) ->
  s' = s /\ al' = SetAlias al k v /\ r = (match v with [] => PAliasDeleted k | _ => PAliasSet k v end).
Proof. intros e s al k v s' al' r R. go R. intros E. injection E as <- <- <-. auto. Qed.
Print Assumptions C64_alias.
Theorem C64_alias_read : forall e s al k s' al' r, ready_ e -> meta e s al [w_ "alias"; k] = Some (s', al', r) ->
  s' = s /\ al' = al /\ r = (match LookupAlias al k with Some v => PAliasIs k v | None => PAliasNot k end).
Proof. intros e s al k s' al' r R. go R. intros E. injection E as <- <- <-. auto. Qed.
Print Assumptions C64_alias_read.

(** Nothing happens before the server plugin has been set up. *)
Theorem C64_too_early : forall e s al args, e_bridged e = true -> e_complete e = false -> meta e s al args = Some (s, al, PMap).
Proof. intros e s al args B C. unfold meta. rewrite B, C. reflexivity. Qed.
Print Assumptions C64_too_early.

(** What commands do to the plugin manager is a sequence of its operations, so
    whatever is said about all histories (C41 - C47) holds for sequences of commands. *)
Theorem C64_history : forall e s al args s' al' r, meta e s al args = Some (s', al', r) -> exists ops rs, run s ops = Some (s', rs).
Proof.
  intros e s al args s' al' r E. unfold meta in E.
  assert (NIL : exists ops rs, run s ops = Some (s, rs)) by (exists [], []; reflexivity).
  assert (ONE : forall o s1 x, step s o = Some (s1, x) -> exists ops rs, run s ops = Some (s1, rs)).
  { intros o s1 x X. exists [o]. cbn [run]. rewrite X. cbn. eauto. }
  destruct (e_bridged e && negb (e_complete e)); [injection E as <- <- _; auto|]. destruct args as [|c args]; [injection E as <- <- _; auto|]. cbv zeta in E.
  destruct (str_eqb c (w_ "credits")); [injection E as <- <- _; auto|].
  destruct (str_eqb c (w_ "version")); [injection E as <- <- _; auto|].
  destruct (str_eqb c (w_ "game")); [injection E as <- <- _; auto|].
  destruct (str_eqb c (w_ "refresh")).
  { unfold cmd_refresh in E. destruct (run s (e_refresh e)) as [[s1 rs]|] eqn:X; [|discriminate]. injection E as <- _ _. eauto. }
  destruct (str_eqb c (w_ "list")). { destruct (cmd_list e s); [|discriminate]. injection E as <- <- _; auto. }
  destruct (str_eqb c (w_ "cmds")). { destruct (cmd_cons c e s _); [|discriminate]. injection E as <- <- _; auto. }
  destruct (str_eqb c (w_ "cvars")). { destruct (cmd_cons c e s _); [|discriminate]. injection E as <- <- _; auto. }
  destruct (str_eqb c (w_ "info")). { destruct (cmd_info e s _); [|discriminate]. injection E as <- <- _; auto. }
  assert (ACT : forall x, match x with Some r => Some (fst r, al, snd r) | None => None end = Some (s', al', r) -> exists y, x = Some (s', y)).
  { intros [[s1 y]|] X; [|discriminate]. injection X as <- <- _. eauto. }
  destruct (str_eqb c (w_ "pause")).
  { apply ACT in E. destruct E as (y & E). unfold cmd_pause in E. destruct (nth_error _ 1) as [a|]; [|injection E as <- _; auto]. destruct (Pause s (atoi a) (e_cb e)) as [[s1 b]|] eqn:X; [|discriminate]. injection E as <- _.
    apply (ONE (OPause (atoi a) (e_cb e)) _ (RBool b)). cbn [step]. rewrite X. reflexivity. }
  destruct (str_eqb c (w_ "unpause")).
  { apply ACT in E. destruct E as (y & E). unfold cmd_unpause in E. destruct (nth_error _ 1) as [a|]; [|injection E as <- _; auto]. destruct (Unpause s (atoi a) (e_cb e)) as [[s1 b]|] eqn:X; [|discriminate]. injection E as <- _.
    apply (ONE (OUnpause (atoi a) (e_cb e)) _ (RBool b)). cbn [step]. rewrite X. reflexivity. }
  destruct (str_eqb c (w_ "load")).
  { apply ACT in E. destruct E as (y & E). unfold cmd_load in E. destruct (nth_error _ 1) as [a|]; [|injection E as <- _; auto].
    destruct (full_path e (resolve_alias al a)) as [path|]; [|discriminate]. destruct (resolve_pending true s) as [s1|] eqn:RP; [|discriminate].
    destruct (Load s1 path (e_li e)) as [[s2 [id aly]]|] eqn:L; [|discriminate].
    assert (s' = s2).
    { destruct (find_id s2 (plugins s2) id) as [[b|]|]; [|injection E as <- _; reflexivity|discriminate]. destruct (getp s2 b) as [p|]; [|discriminate]. destruct (p_status p) as [x|]; [|discriminate].
      destruct ((id <? 1)%Z || negb (loaded x)); [injection E as <- _; reflexivity|]. destruct (p_api p); [|discriminate]. destruct (callable s2 p); [|discriminate]. injection E as <- _. reflexivity. }
    subst s'. exists [OResolve; OLoad path 0 (e_li e)]. cbn [run step]. rewrite RP. cbn [fst snd]. rewrite L. cbn. eauto. }
  destruct (str_eqb c (w_ "alias") || str_eqb c (w_ "aliases")). { injection E as <- _ _. auto. }
  assert (UNL : forall id f y, (do r <- Unload s id f (e_cb e) ; Some (fst r, y (snd r))) = Some (s', r) -> exists ops rs, run s ops = Some (s', rs)).
  { intros id f y X. destruct (Unload s id f (e_cb e)) as [[s1 b]|] eqn:U; [|discriminate]. injection X as <- _. apply (ONE (OUnload id f (e_cb e)) _ (RBool b)). cbn [step]. rewrite U. reflexivity. }
  destruct (str_eqb c (w_ "unload")).
  { apply ACT in E. destruct E as (y & E). unfold cmd_unload in E. destruct (nth_error _ 1) as [a|]; [|injection E as <- _; auto].
    assert (UU : forall id, (do r <- Unload s id false (e_cb e) ; Some (fst r, if snd r then PUnloaded id else PUnloadFailed)) = Some (s', y) -> exists ops rs, run s ops = Some (s', rs)).
    { intros id X. destruct (Unload s id false (e_cb e)) as [[s1 b]|] eqn:U; [|discriminate]. injection X as <- _. apply (ONE (OUnload id false (e_cb e)) _ (RBool b)). cbn [step]. rewrite U. reflexivity. }
    destruct ((atoi a =? 0)%Z && is_letter a); [|exact (UU _ E)]. destruct (full_path e (resolve_alias al a)) as [path|]; [|discriminate].
    destruct (find_file s (plugins s) path) as [[id|]|]; [|injection E as <- _; auto|discriminate]. destruct (id =? 0)%Z; [injection E as <- _; auto|exact (UU _ E)]. }
  destruct (str_eqb c (w_ "force_unload")).
  { apply ACT in E. destruct E as (y & E). unfold cmd_force in E. destruct (nth_error _ 1) as [a|]; [|injection E as <- _; auto].
    destruct (Unload s (atoi a) true (e_cb e)) as [[s1 b]|] eqn:U; [|discriminate]. injection E as <- _. apply (ONE (OUnload (atoi a) true (e_cb e)) _ (RBool b)). cbn [step]. rewrite U. reflexivity. }
  destruct (str_eqb c (w_ "clear")).
  { apply ACT in E. destruct E as (y & E). unfold cmd_clear in E. destruct (UnloadAll (length (plugins s)) s (e_cbs e)) as [[[s1 b]|]|] eqn:U; [|discriminate..]. injection E as <- _.
    apply (ONE (OUnloadAll (e_cbs e)) _ (RBool b)). cbn [step]. rewrite U. reflexivity. }
  destruct (str_eqb c (w_ "retry")).
  { apply ACT in E. destruct E as (y & E). unfold cmd_retry in E. destruct (nth_error _ 1) as [a|]; [|injection E as <- _; auto].
    destruct (Retry s (atoi a) (e_li e) (e_cb e)) as [[s1 b]|] eqn:U; [|discriminate]. injection E as <- _. apply (ONE (ORetry (atoi a) (e_li e) (e_cb e)) _ (RBool b)). cbn [step]. rewrite U. reflexivity. }
  injection E as <- _ _. auto.
Qed.
Print Assumptions C64_history.

(** "meta info", "meta cmds" and "meta cvars" speak of the plugin with that number. *)
Lemma found s (I : Inv s) n o : find_id s (plugins s) n = Some o ->
  match o with Some a => exists p, getp s a = Some p /\ p_id p = n /\ In p (listed s) | None => absent n (view s) end.
Proof.
  intros F. apply find_id_spec in F. destruct o as [a|].
  - destruct F as (Ia & p & G & E). exists p. split; [exact G|]. split; [exact E|]. apply listed_in. eauto.
  - intros f x J. rewrite view_gv in J. apply in_flat_map in J. destruct J as (a & Ia & J). unfold gv in J. destruct (getp s a) as [p|] eqn:G; [|destruct J]. destruct J as [J|[]]. injection J as J1 _ _. exact (F a p Ia G J1).
Qed.
Theorem C64_info : forall e s al n s' al' r, ready_ e -> reachable s -> is_int n ->
  meta e s al [w_ "info"; numeral n] = Some (s', al', r) -> s' = s /\ al' = al /\
  match r with
  | PNotFound m => m = n /\ absent n (view s)
  | PInfo m None f => m = n /\ exists p, In p (listed s) /\ p_id p = n /\ p_file p = f /\ p_api p = None
  | PInfo m (Some i) f => m = n /\ exists p api, In p (listed s) /\ p_id p = n /\ p_file p = f /\ p_api p = Some api /\
      match i with
      | IPaused => p_status p = Some Paused
      | IRunning => p_status p = Some Running /\ e_running e api = true
      | IStopped t => p_status p = Some Running /\ e_running e api = false /\ e_msg e api = Some t
      | ILoading => ~ usable (p_status p)
      end
  | _ => False
  end.
Proof.
  intros e s al n s' al' r R Rs Hn. go R. rewrite (atoi_numeral n Hn). pose proof (proj1 (reachable_Good _ Rs)) as I.
  destruct (find_id s (plugins s) n) as [o|] eqn:F; [|discriminate]. apply (found s I) in F. destruct o as [a|].
  - destruct F as (p & G & P & L). rewrite G. destruct (p_api p) as [api|] eqn:A.
    + destruct (callable s p); [|discriminate]. destruct (p_status p) as [x|] eqn:X; [|discriminate].
      destruct x; cbn; try (intros E; injection E as <- <- <-; repeat split; exists p, api; rewrite X; repeat split; auto; intros [C|C]; discriminate).
      destruct (e_running e api) eqn:Q; [intros E; injection E as <- <- <-; repeat split; exists p, api; rewrite X; repeat split; auto|].
      destruct (e_msg e api) as [t|] eqn:M; [|discriminate]. cbn. intros E; injection E as <- <- <-; repeat split; exists p, api; rewrite X; repeat split; auto.
    + cbn. intros E. injection E as <- <- <-. repeat split. exists p. auto.
  - cbn. intros E. injection E as <- <- <-. auto.
Qed.
Print Assumptions C64_info.
Theorem C64_cons : forall e s al c n s' al' r, ready_ e -> reachable s -> is_int n -> c = w_ "cmds" \/ c = w_ "cvars" ->
  meta e s al [c; numeral n] = Some (s', al', r) -> s' = s /\ al' = al /\
  match r with
  | PNotFound m => m = n /\ absent n (view s)
  | PNotLoaded m => m = n /\ exists p, In p (listed s) /\ p_id p = n /\ p_api p = None
  | PCons t l => exists p api, In p (listed s) /\ p_id p = n /\ p_api p = Some api /\ t = e_name e api /\ l = p_cons p
  | _ => False
  end.
Proof.
  intros e s al c n s' al' r R Rs Hn HC. pose proof (proj1 (reachable_Good _ Rs)) as I.
  assert (K : forall x, (do r0 <- cmd_cons x e s (Some (numeral n)) ; Some (s, al, r0)) = Some (s', al', r) -> s' = s /\ al' = al /\
    match r with PNotFound m => m = n /\ absent n (view s) | PNotLoaded m => m = n /\ exists p, In p (listed s) /\ p_id p = n /\ p_api p = None
    | PCons t l => exists p api, In p (listed s) /\ p_id p = n /\ p_api p = Some api /\ t = e_name e api /\ l = p_cons p | _ => False end).
  { intros x. unfold cmd_cons. rewrite (atoi_numeral n Hn). destruct (find_id s (plugins s) n) as [o|] eqn:F; [|discriminate]. apply (found s I) in F. destruct o as [a|].
    - destruct F as (p & G & P & L). rewrite G. destruct (p_api p) as [api|] eqn:A; [destruct (callable s p); [|discriminate]|]; intros E; injection E as <- <- <-; repeat split; [exists p, api|exists p]; auto.
    - intros E. injection E as <- <- <-. auto. }
  destruct HC as [-> | ->]; unfold meta; rewrite (meta_ready _ R); cbn -[cmd_cons]; exact (K _).
Qed.
Print Assumptions C64_cons.

(** *** The lists *)
Definition texts (e : env) : Prop := forall api, ~ In NUL (e_name e api) /\ ~ In NUL (e_version e api) /\ ~ In NUL (e_author e api).
Lemma safe_rows ops s rs : guarded init ops -> run init ops = Some (s, rs) -> (forall p, In p (listed s) -> ~ In NUL (p_file p)) ->
  forall a, In a (plugins s) -> exists p, getp s a = Some p /\ p_status p <> None /\ (0 <= p_id p)%Z /\ ~ In NUL (p_file p) /\ (p_api p <> None -> callable s p = true).
Proof.
  intros G R NF a Ia. destruct (guarded_ok ops init init_Good init_Safe G) as (s' & rs' & R' & SF & GS). rewrite R in R'. injection R' as <- <-. destruct GS as (I & ST & _).
  destruct (iv_get _ I a Ia) as (p & Gp). exists p. split; [exact Gp|]. split; [exact (ST a p Ia Gp)|]. split; [pose proof (iv_id _ I a p Ia Gp); lia|]. split; [apply NF, listed_in; eauto|].
  intros A. exact (callable_ok None s a p SF Gp A).
Qed.
(** "meta list" shows every plugin, in order, each with its own id, in lines of at
    most 255 bytes; it never leaves its array and never uses a plugin that is gone. *)
Theorem C64_list : forall e ops s rs al, ready_ e -> guarded init ops -> run init ops = Some (s, rs) ->
  texts e -> (forall p, In p (listed s) -> ~ In NUL (p_file p)) -> 256 <= length (e_junk e) -> listed s <> [] ->
  meta e s al [w_ "list"] = Some (s, al, PList (Z.of_nat (length (listed s)))
     (map (fun p => firstn 255 (line (e_name e) (e_version e) (e_author e) (p_id p) p)) (listed s))).
Proof.
  intros e ops s rs al R G E T NF J NE. go R. unfold cmd_list. pose proof (C41_ids_distinct s) as LEN. destruct LEN as [LEN _]; [exists ops, rs; exact E|].
  destruct (plugins s) as [|a l] eqn:P; [exfalso; apply NE; unfold listed; rewrite P; reflexivity|]. rewrite LEN. rewrite <- P.
  rewrite (list_lines_spec e T s (plugins s) (firstn 256 (e_junk e))); [reflexivity|rewrite firstn_length; lia|]. exact (safe_rows ops s rs G E NF).
Qed.
Print Assumptions C64_list.
(** The list for clients: the plugins that are running and say so, counted. *)
Theorem C64_client_list : forall e ops s rs, guarded init ops -> run init ops = Some (s, rs) ->
  texts e -> (forall p, In p (listed s) -> ~ In NUL (p_file p)) -> 256 <= length (e_junk e) ->
  exists shown, client_meta e s (w_ "meta") [w_ "list"] = Some (Some (match shown with [] => PNone | _ => PList (Z.of_nat (length shown))
       (map (fun x => firstn 255 (line (e_name e) (e_version e) (e_author e) (fst x) (snd x))) (numbered 1 shown)) end)) /\
    shown = filter (fun p => match p_status p, p_api p with Some Running, Some a => e_running e a | _, _ => false end) (listed s).
Proof.
  intros e ops s rs G E T NF J. exists (filter (visible e) (listed s)). split; [|reflexivity]. unfold client_meta. cbn -[client_lines firstn].
  rewrite (client_lines_spec e T s (plugins s) (firstn 256 (e_junk e)) 0).
  - fold (listed s). change (0 + 1)%Z with 1%Z. set (sh := filter (visible e) (listed s)). clearbody sh. do 2 f_equal. destruct sh as [|p sh]; [reflexivity|]. cbn [numbered map]. f_equal. cbn [length]. do 2 f_equal. rewrite map_length.
    generalize (1 + 1)%Z as k. induction sh as [|q sh IH]; intros k; [reflexivity|]. cbn [numbered length]. f_equal. apply IH.
  - rewrite firstn_length; lia.
  - lia.
  - intros a Ia. destruct (safe_rows ops s rs G E NF a Ia) as (p & H1 & H2 & _ & H3 & H4). exists p. auto.
Qed.
Print Assumptions C64_client_list.
(** Clients can read only; other commands are not taken. *)
Theorem C64_client : forall e s cmd args, cmd <> w_ "meta" -> client_meta e s cmd args = Some None.
Proof. intros e s cmd args N. unfold client_meta. rewrite (str_eqb_ne _ _ N). reflexivity. Qed.
Print Assumptions C64_client.

(** *** Findings *)
Definition env0 (api : nat) (ok : bool) : env :=
  mkEnv false false (w_ "/srv/tf") (fun _ => false) (repeat NUL 256) (fun _ => w_ "P") (fun _ => []) (fun _ => []) (fun _ => true) (fun _ => None)
        (lib_ api [] ok) ([], true) (fun _ => ([], true)) [] [].
Fixpoint metas (s : st) (al : aliases) (l : list (env * list str)) : option (st * aliases * list reply) :=
  match l with
  | [] => Some (s, al, [])
  | (e, a) :: l => do r <- meta e s al a ; do q <- metas (fst (fst r)) (snd (fst r)) l ; Some (fst q, snd r :: snd q)
  end.
Definition words (l : list string) : list str := map w_ l.

(** A plugin whose name starts with a digit is loaded by name; unloading it by name
    unloads another plugin. *)
Theorem C64_digit_name_refuted : exists s al rs, metas init [] (map (fun x => (env0 (fst x) true, words (snd x)))
    [(10, ["load"; "3d"]); (11, ["load"; "b"]); (12, ["load"; "c"]); (10, ["unload"; "3d"])]%string) = Some (s, al, rs) /\
  rs = [PLoaded (w_ "P") 1; PLoaded (w_ "P") 2; PLoaded (w_ "P") 3; PUnloaded 3] /\
  map (fun e => (fst (fst e), snd (fst e))) (view s) = [(1%Z, w_ "/srv/tf/3d.so"); (2%Z, w_ "/srv/tf/b.so")].
Proof. eexists _, _, _. split; [vm_compute; reflexivity|]. split; reflexivity. Qed.
Print Assumptions C64_digit_name_refuted.
(** A name that starts with neither a letter nor a digit is taken for number 0:
    an absolute path can be loaded but not unloaded by name; the same path in another
    spelling is "already loaded" but cannot be unloaded by that spelling. *)
Theorem C64_other_name_refuted : exists s al rs, metas init [] (map (fun x => (env0 (fst x) true, words (snd x)))
    [(10, ["load"; "/opt/a.so"]); (10, ["unload"; "/opt/a.so"]); (11, ["load"; "addons/b"]); (11, ["load"; "addons//b"]); (11, ["unload"; "addons//b"])]%string) = Some (s, al, rs) /\
  rs = [PLoaded (w_ "P") 1; PUnloadFailed; PLoaded (w_ "P") 2; PAlready (w_ "P") 2; PNoFile (w_ "/srv/tf/addons//b.so")] /\ length (view s) = 2.
Proof. eexists _, _, _. split; [vm_compute; reflexivity|]. split; reflexivity. Qed.
Print Assumptions C64_other_name_refuted.
(** "is already loaded" is said of a plugin that was not loaded before: its failed
    entry was replaced by this very command. *)
Theorem C64_already_refuted : exists s al rs, metas init [] [(env0 10 false, words ["load"; "a"]%string); (env0 10 true, words ["load"; "a"]%string)] = Some (s, al, rs) /\
  rs = [PLoadFailed (w_ "a"); PAlready (w_ "P") 2] /\ map snd (view s) = [Some Running].
Proof. eexists _, _, _. split; [vm_compute; reflexivity|]. split; reflexivity. Qed.
Print Assumptions C64_already_refuted.
(** The numbers clients see are no ids. *)
Theorem C64_client_number_refuted : exists s al rs, metas init [] [(env0 10 false, words ["load"; "a"]%string); (env0 11 true, words ["load"; "b"]%string)] = Some (s, al, rs) /\
  meta (env0 11 true) s al (words ["list"]%string) = Some (s, al, PList 2 (words ["  [01] <FAILED>"; "  [02] P"]%string)) /\
  client_meta (env0 11 true) s (w_ "meta") (words ["list"]%string) = Some (Some (PList 1 (words ["  [01] P"]%string))).
Proof. eexists _, _, _. split; [vm_compute; reflexivity|]. split; vm_compute; reflexivity. Qed.
Print Assumptions C64_client_number_refuted.
(** "meta info" prints an array that nobody has written to when a plugin says that it
    is not running and gives no reason. *)
Definition env_stopped : env := mkEnv false false (w_ "/srv/tf") (fun _ => false) (repeat NUL 256) (fun _ => w_ "P") (fun _ => []) (fun _ => []) (fun _ => false) (fun _ => None)
        (lib_ 10 [] true) ([], true) (fun _ => ([], true)) [] [].
Theorem C64_info_refuted : exists s al rs, metas init [] [(env0 10 true, words ["load"; "a"]%string)] = Some (s, al, rs) /\
  meta env_stopped s al (words ["info"; "1"]%string) = None /\
  meta (env0 10 true) s al (words ["info"; "1"]%string) = Some (s, al, PInfo 1 (Some IRunning) (w_ "/srv/tf/a.so")).
Proof. eexists _, _, _. split; [vm_compute; reflexivity|]. split; vm_compute; reflexivity. Qed.
Print Assumptions C64_info_refuted.

(** Non-vacuity: a session with all commands that act. *)
Example C64_example : exists s al rs, metas init [] (map (fun x => (env0 (fst x) true, words (snd x)))
    [(10, ["load"; "a"]); (11, ["alias"; "sm"; "addons/sm_mm"]); (11, ["load"; "sm"]); (10, ["pause"; "1"]); (10, ["pause"; "01"]); (10, ["unpause"; "1"]); (11, ["unload"; "sm"]);
     (11, ["unload"; "sm"]); (10, ["retry"; "1"]); (10, ["alias"; "sm"; ""]); (10, ["alias"; "sm"]); (10, ["force_unload"; "7"]); (10, ["foo"]); (10, ["pause"]); (10, ["clear"]); (10, ["list"])]%string) = Some (s, al, rs) /\
  rs = [PLoaded (w_ "P") 1; PAliasSet (w_ "sm") (w_ "addons/sm_mm"); PLoaded (w_ "P") 2; PPaused 1; PPauseFailed; PUnpaused 1; PUnloaded 2; PNoFile (w_ "/srv/tf/addons/sm_mm.so");
        PRetryFailed; PAliasDeleted (w_ "sm"); PAliasNot (w_ "sm"); PForceFailed; PMenu; PUsage (w_ "pause"); PCleared; PNone].
Proof. eexists _, _, _. split; [vm_compute; reflexivity|]. reflexivity. Qed.
