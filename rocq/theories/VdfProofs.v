From Coq Require Import List Bool Arith ZArith Ascii String Lia.
From Verif Require Import ListModel StrModel StrSpec StrProofs RelModel RelSpec RelProofs RelProps PlFileModel PlFileSpec PlFileProofs PlFileProps EngModel
  PlugModel PlugSpec PlugProofs PlugRun PlugSafe PlugSafe2 PlugSafe3 PlugProps VdfModel VdfSpec.
Import ListNotations.
Local Open Scope list_scope.
Local Open Scope nat_scope.
Notation length := List.length.

(** ** What Load does to the list *)
Definition samef (s : st) (f : str) (a : nat) : bool :=
  match getp s a with Some p => if list_eq_dec ascii_dec (collapse f) (collapse (p_file p)) then true else false | None => false end.

Lemma scan_filter s f : forall l l' al, load_scan s f l = Some (l', al, None) ->
  l' = filter (fun a => negb (samef s f a)) l /\
  (forall a p, In a l -> getp s a = Some p -> samef s f a = true -> ~ is_loaded p).
Proof.
  induction l as [|a l IH]; intros l' al E; cbn [load_scan] in E.
  - injection E as <- _. split; [reflexivity|intros ? ? []].
  - destruct (getp s a) as [p|] eqn:G; [|discriminate].
    destruct (UTIL_PathCmp_spec f (p_file p)) as (r & R & Hr). rewrite R in E.
    assert (SA : samef s f a = r).
    { unfold samef. rewrite G. destruct (list_eq_dec _ _ _) as [e|e], r; try reflexivity.
      - symmetry. apply Hr. exact e.
      - exfalso. apply e. apply Hr. reflexivity. }
    destruct r.
    + destruct (p_status p) as [x|] eqn:X; [|discriminate]. destruct (loaded x) eqn:Lx; [discriminate|].
      destruct (load_scan s f l) as [[[l1 al1] e1]|] eqn:L; [|discriminate]. injection E as <- _ ->.
      destruct (IH _ _ eq_refl) as [-> N]. cbn [filter]. rewrite SA. split; [reflexivity|].
      intros b q [<-|Ib] Q S; [|exact (N b q Ib Q S)]. assert (q = p) by congruence. subst q. intros [C|C]; rewrite X in C; injection C as ->; discriminate.
    + destruct (load_scan s f l) as [[[l1 al1] e1]|] eqn:L; [|discriminate]. injection E as <- _ ->.
      destruct (IH _ _ eq_refl) as [-> N]. cbn [filter]. rewrite SA. split; [reflexivity|].
      intros b q [<-|Ib] Q S; [congruence|exact (N b q Ib Q S)].
Qed.

Definition vwof (s : st) (a : nat) := match getp s a with Some p => [vw p] | None => [] end.
Lemma listed_vw s : map vw (listed s) = flat_map (vwof s) (plugins s).
Proof.
  unfold listed. rewrite map_flat. apply flat_map_ext. intros a. unfold vwof. destruct (getp s a); reflexivity.
Qed.

Definition ldv (v : Z * str * option status) : bool := match snd v with Some Running | Some Paused => true | _ => false end.
Lemma n_running_vw s : n_running s = length (filter ldv (map vw (listed s))).
Proof.
  unfold n_running. induction (listed s) as [|p l IH]; [reflexivity|]. cbn [filter map]. unfold ldv at 1, loadedb at 1. cbn [vw snd].
  destruct (p_status p) as [[]|]; cbn [length]; rewrite ?IH; reflexivity.
Qed.
Lemma loadedb_spec p : loadedb p = true <-> is_loaded p.
Proof.
  unfold loadedb, is_loaded. destruct (p_status p) as [[]|]; split; intros H; try discriminate; try reflexivity; auto; destruct H as [H|H]; discriminate.
Qed.

Lemma flat_map_in_ext {A B} (f g : A -> list B) : forall l, (forall a, In a l -> f a = g a) -> flat_map f l = flat_map g l.
Proof.
  induction l as [|a l IH]; intros H; [reflexivity|]. cbn [flat_map]. rewrite (H a (or_introl eq_refl)), IH; [reflexivity|]. intros b Ib. apply H. right. exact Ib.
Qed.

Lemma reachable_Load s f li s' r : reachable s -> Load s f li = Some (s', r) -> reachable s'.
Proof.
  intros (ops & rs & R) E. assert (A : forall l s0 rs0, run s0 l = Some (s, rs0) -> exists rs1, run s0 (l ++ [OLoad f 0 li]) = Some (s', rs1)).
  { induction l as [|o l IH]; intros s0 rs0 R0; cbn [run app] in *.
    - injection R0 as -> _. cbn [step]. rewrite E. eauto.
    - destruct (step s0 o) as [[s1 x]|]; [|discriminate]. cbn [fst snd] in R0 |- *. destruct (run s1 l) as [[s2 xs]|] eqn:R1; [|discriminate]. cbn [fst snd] in R0. injection R0 as -> _.
      destruct (IH _ _ R1) as (rs1 & ->). eauto. }
  destruct (A _ _ _ R) as (rs1 & R1). exists (ops ++ [OLoad f 0 li]), rs1. exact R1.
Qed.

Lemma running_dec s f : running s f \/ ~ running s f.
Proof.
  destruct (existsb (fun p => loadedb p && if list_eq_dec ascii_dec (collapse f) (collapse (p_file p)) then true else false) (listed s)) eqn:E.
  - left. apply existsb_exists in E. destruct E as (p & Ip & E). apply andb_prop in E. destruct E as [E1 E2]. exists p. split; [exact Ip|]. split; [apply loadedb_spec; exact E1|].
    destruct (list_eq_dec _ _ _) as [e|e]; [exact e|discriminate].
  - right. intros (p & Ip & L & SP). assert (C : existsb (fun p => loadedb p && if list_eq_dec ascii_dec (collapse f) (collapse (p_file p)) then true else false) (listed s) = true).
    { apply existsb_exists. exists p. split; [exact Ip|]. rewrite (proj2 (loadedb_spec p) L). destruct (list_eq_dec _ _ _) as [e|e]; [reflexivity|contradiction]. }
    congruence.
Qed.

Lemma Load_cases s f li s' id al : reachable s -> Load s f li = Some (s', (id, al)) ->
  (exists p, In p (listed s) /\ is_loaded p /\ same_path f (p_file p) /\ s' = s /\ id = p_id p /\ al = true) \/
  (~ running s f /\ id = last s /\ (al = true <-> known s f) /\
   exists x p, map vw (listed s') = flat_map (vwof s) (filter (fun a => negb (samef s f a)) (plugins s)) ++ [(last s, f, Some x)] /\
     In p (listed s') /\ p_id p = id /\ p_status p = Some x /\ p_file p = f).
Proof.
  intros RS E. destruct (running_dec s f) as [(p & Ip & IL & SP)|NR].
  { left. exists p. pose proof (C43_already s p f 0 li RS Ip IL SP) as H. cbn [step] in H. rewrite E in H. cbn [fst snd] in H. injection H as -> -> ->. auto 10. }
  right. split; [exact NR|].
  assert (AL : al = true <-> known s f).
  { apply (C43_already_means_entry s f 0 li s' id al RS). cbn [step]. rewrite E. reflexivity. }
  pose proof (reachable_Good s RS) as GS. unfold Load in E. destruct (load_scan s f (plugins s)) as [[[l al'] e]|] eqn:L; [|discriminate].
  destruct (load_scan_spec _ _ _ _ _ _ L) as (J & N & D & A & X).
  destruct e as [id'|].
  { exfalso. apply NR. destruct X as (_ & a & p & x & Ia & G & I & Sx & Lx & SF). exists p. split; [apply listed_in; eauto|]. split; [|exact SF].
    unfold is_loaded. rewrite Sx. destruct x; try discriminate; auto. }
  destruct (scan_filter _ _ _ _ _ L) as [FL _].
  assert (GS1 : Good (set_plugins l s)) by (apply Good_sub; auto; apply N, GS).
  destruct (_Load (set_plugins l s) f li) as [[s1 a]|] eqn:L1; [|discriminate].
  destruct (_Load_spec _ _ _ _ _ (proj1 GS1) L1) as (Ea & I1 & P1 & La & _ & _ & K & p & x & Gp & Ip & Fp & Sp).
  rewrite Gp in E. destruct (iter_plevent s1 OnLoad (p_id p)) as [s2|] eqn:It; [|discriminate]. injection E as E1 E2 E3. subst s2 id al'.
  apply iter_same in It. cbn [plugins last] in P1, Ip.
  split; [exact Ip|]. split; [exact AL|].
  pose proof (same_frame _ _ It) as FR.
  assert (Ia1 : In a (plugins s1)) by (rewrite P1; apply in_or_app; right; left; reflexivity).
  destruct (fr_get _ _ FR a p Ia1 Gp) as (p' & Gp' & Vp).
  exists x, p'. split.
  - rewrite listed_vw, (fr_plugins _ _ FR), P1, flat_map_app. cbn [flat_map]. rewrite app_nil_r. f_equal.
    + rewrite FL. apply flat_map_in_ext. intros b Ib. rewrite <- FL in Ib. destruct (iv_get _ (proj1 GS) b (J b Ib)) as (q & Q).
      destruct (K b q Ib Q) as (q1 & Q1 & V1). assert (Ib1 : In b (plugins s1)) by (rewrite P1; apply in_or_app; left; exact Ib).
      destruct (fr_get _ _ FR b q1 Ib1 Q1) as (q2 & Q2 & V2). unfold vwof. rewrite Q2, Q. congruence.
    + unfold vwof. rewrite Gp', Vp. unfold vw. rewrite Ip, Fp, Sp. reflexivity.
  - split; [apply listed_in; exists a; split; [rewrite (fr_plugins _ _ FR); exact Ia1|exact Gp']|].
    split; [exact (vw_id _ _ Vp)|]. split; [rewrite (vw_status _ _ Vp); exact Sp|rewrite (vw_file _ _ Vp); exact Fp].
Qed.

Lemma drop_count s f : ~ running s f -> forall l, (forall a, In a l -> In a (plugins s)) ->
  length (filter ldv (flat_map (vwof s) (filter (fun a => negb (samef s f a)) l))) = length (filter ldv (flat_map (vwof s) l)).
Proof.
  intros NR. induction l as [|a l IH]; intros Sub; [reflexivity|]. specialize (IH (fun b Ib => Sub b (or_intror Ib))).
  cbn [filter]. destruct (samef s f a) eqn:Sa; cbn [negb flat_map]; rewrite ?filter_app, ?app_length; [|lia].
  unfold samef in Sa. unfold vwof at 2. destruct (getp s a) as [p|] eqn:G; [|discriminate]. destruct (list_eq_dec _ _ _) as [e|e]; [|discriminate].
  cbn [filter]. assert (LD : ldv (vw p) = false).
  { destruct (ldv (vw p)) eqn:LD; [|reflexivity]. exfalso. apply NR. exists p. split; [apply listed_in; exists a; split; [apply Sub; left; reflexivity|exact G]|].
    split; [apply loadedb_spec; exact LD|exact e]. }
  rewrite LD. cbn [length]. lia.
Qed.

Lemma known_dec s f : known s f \/ ~ known s f.
Proof.
  destruct (existsb (fun p => if list_eq_dec ascii_dec (collapse f) (collapse (p_file p)) then true else false) (listed s)) eqn:E.
  - left. apply existsb_exists in E. destruct E as (p & Ip & E). exists p. split; [exact Ip|]. destruct (list_eq_dec _ _ _) as [e|e]; [exact e|discriminate].
  - right. intros (p & Ip & SP). assert (C : existsb (fun p => if list_eq_dec ascii_dec (collapse f) (collapse (p_file p)) then true else false) (listed s) = true).
    { apply existsb_exists. exists p. split; [exact Ip|]. destruct (list_eq_dec _ _ _) as [e|e]; [reflexivity|contradiction]. }
    congruence.
Qed.

(** what the caller of Load finds *)
Lemma found s' id p : reachable s' -> In p (listed s') -> p_id p = id ->
  (id <? Pl_MinId)%Z = false /\ exists a, In a (plugins s') /\ find_id s' (plugins s') id = Some (Some a) /\ getp s' a = Some p.
Proof.
  intros R Ip Id. pose proof (reachable_Good _ R) as (I & _ & _). apply listed_in in Ip. destruct Ip as (a & Ia & G).
  split. { apply Z.ltb_ge. unfold Pl_MinId. pose proof (iv_id _ I a p Ia G). lia. }
  exists a. split; [exact Ia|]. split; [|exact G]. destruct (find_id_total s' (plugins s') id (iv_get _ I)) as (r & F). rewrite F. f_equal.
  pose proof (find_id_spec _ _ _ _ F) as FS. destruct r as [b|].
  - destruct FS as (Ib & q & Gq & Iq). f_equal. apply (iv_ids _ I b a q p Ib Ia Gq G). congruence.
  - exfalso. exact (FS a p Ia G Id).
Qed.

Definition gain (o : outcome) : nat := if newly o || revived o then 1 else 0.
Lemma Load_outcome s f li s' id al : reachable s -> Load s f li = Some (s', (id, al)) ->
  reachable s' /\ (id <? Pl_MinId)%Z = false /\
  exists o a p x, find_id s' (plugins s') id = Some (Some a) /\ getp s' a = Some p /\ p_status p = Some x /\
    outcome_of s f s' o /\ loaded x = negb (failed o) /\ al = (present o || broken o) /\ n_running s' = n_running s + gain o.
Proof.
  intros R E. pose proof (reachable_Load _ _ _ _ _ R E) as R'. split; [exact R'|].
  destruct (Load_cases _ _ _ _ _ _ R E) as [(p & Ip & IL & SP & -> & -> & ->)|(NR & Id & AL & x & p & V & Ip & Ep & Sx & Fp)].
  - destruct (found s _ p R Ip eq_refl) as (M & a & Ia & F & G). split; [exact M|].
    assert (X : exists x, p_status p = Some x /\ loaded x = true) by (destruct IL as [->| ->]; eauto). destruct X as (x & Sx & Lx).
    exists Present, a, p, x. split; [exact F|]. split; [exact G|]. split; [exact Sx|].
    split; [apply oo_present; [exists p; auto|reflexivity]|]. split; [exact Lx|]. split; [reflexivity|]. unfold gain. cbn. lia.
  - destruct (found s' _ p R' Ip Ep) as (M & a & Ia & F & G). split; [exact M|].
    assert (RUN : loaded x = true <-> running s' f).
    { split.
      - intros Lx. exists p. split; [exact Ip|]. split; [unfold is_loaded; rewrite Sx; destruct x; try discriminate; auto|]. rewrite Fp. reflexivity.
      - intros (q & Iq & Lq & SQ). apply listed_in in Iq. destruct Iq as (b & Ib & Gb).
        assert (b = a). { apply (C43_one_entry_per_file s' b a q p R' Ib Ia Gb G). rewrite Fp. symmetry. exact SQ. }
        subst b. assert (q = p) by congruence. subst q. destruct Lq as [C|C]; rewrite Sx in C; injection C as ->; reflexivity. }
    assert (NN : n_running s' = n_running s + (if loaded x then 1 else 0)).
    { rewrite !n_running_vw, V, filter_app, app_length. f_equal.
      - rewrite (drop_count s f NR (plugins s) (fun a Ia => Ia)), listed_vw. reflexivity.
      - cbn [filter]. unfold ldv. cbn [snd]. destruct x; reflexivity. }
    destruct (known_dec s f) as [K|K].
    + exists (Broken (loaded x)), a, p, x. split; [exact F|]. split; [exact G|]. split; [exact Sx|].
      split; [apply oo_broken; assumption|]. split; [destruct (loaded x); reflexivity|]. split; [apply AL; exact K|]. rewrite NN. destruct (loaded x); reflexivity.
    + exists (Fresh (loaded x)), a, p, x. split; [exact F|]. split; [exact G|]. split; [exact Sx|].
      split; [apply oo_fresh; assumption|]. split; [destruct (loaded x); reflexivity|].
      split; [destruct al; [exfalso; apply K, AL; reflexivity|reflexivity]|]. rewrite NN. destruct (loaded x); reflexivity.
Qed.

Lemma kept_refl s : kept s s.
Proof. intros p Ip _. exists p. auto. Qed.
Lemma kept_trans s1 s2 s3 : kept s1 s2 -> kept s2 s3 -> kept s1 s3.
Proof.
  intros A B p Ip L. destruct (A p Ip L) as (q & Iq & I1 & F1 & S1). destruct (B q Iq) as (r & Ir & I2 & F2 & S2).
  - unfold is_loaded in *. rewrite S1. exact L.
  - exists r. split; [exact Ir|]. split; [congruence|]. split; congruence.
Qed.
Lemma Load_kept s f li s' id al : reachable s -> Load s f li = Some (s', (id, al)) -> kept s s'.
Proof.
  intros R E. destruct (Load_cases _ _ _ _ _ _ R E) as [(p & _ & _ & _ & -> & _ & _)|(NR & Id & AL & x & p & V & Ip & Ep & Sx & Fp)]; [apply kept_refl|].
  intros q Iq Lq. pose proof Iq as Iq'. apply listed_in in Iq. destruct Iq as (a & Ia & G).
  assert (Sa : samef s f a = false).
  { unfold samef. rewrite G. destruct (list_eq_dec _ _ _) as [e|e]; [|reflexivity]. exfalso. apply NR. exists q. auto. }
  assert (Iv : In (vw q) (map vw (listed s'))).
  { rewrite V. apply in_or_app. left. apply in_flat_map. exists a. split; [apply filter_In; rewrite Sa; auto|]. unfold vwof. rewrite G. left. reflexivity. }
  apply in_map_iff in Iv. destruct Iv as (q' & Vq & Iq2). exists q'. split; [exact Iq2|]. split; [exact (vw_id _ _ Vq)|]. split; [exact (vw_file _ _ Vq)|exact (vw_status _ _ Vq)].
Qed.

Section Run.
Variable stat_ access_ : str -> bool.
Variable baseFs : bool.
Variable kv : str -> option (option str * option str).
Variable lib : st -> str -> loadinfo.
Variable mod_path : str.
Variables PATH_SIZE MAX_PATH : nat.
Variable junk : nat -> buf.
Hypothesis junk_len : forall n, length (junk n) = n.
Hypothesis mod_nul : ~ In NUL mod_path.

Lemma absolute_dec f : PlFileSpec.absolute f \/ ~ PlFileSpec.absolute f.
Proof.
  destruct f as [|c f]; [right; intros [(r & C)|(c & r & C)]; discriminate|].
  destruct (is_abs_spec (c :: f)) as (a & _ & H); [discriminate|]. destruct a; [left; apply H; reflexivity|right; intros C; apply H in C; discriminate].
Qed.
Lemma full_path f size : sane f -> 0 < size ->
  exists b k full, GetFullPluginPath stat_ mod_path f (junk size) size = Some (b, k) /\ cstr b = Some full /\ plugin_path stat_ mod_path (size - 1) f full.
Proof.
  intros (NE & NN & NP) Sz. destruct (absolute_dec f) as [A|A].
  - destruct (C57_absolute stat_ mod_path f (junk size) size A Sz) as (b & E & C & _); [rewrite junk_len; lia|exact NN|exact (NP A)|].
    eexists b, _, _. split; [exact E|]. split; [exact C|]. apply pp_absolute. exact A.
  - destruct (C57_relative stat_ mod_path f (junk size) size NE A Sz) as (b & k & ext & E & C & _ & _ & X & Y); [rewrite junk_len; lia|intros C; apply in_app_or in C; tauto|].
    eexists b, k, _. split; [exact E|]. split; [exact C|].
    destruct (UTIL_GetExtension_spec f) as (r & _ & Hr). destruct r as [e|].
    + rewrite (X (ex_intro _ e Hr)), app_nil_r. eapply pp_extension; eassumption.
    + pose proof (pp_none stat_ mod_path (size - 1) f A Hr) as P. cbv zeta in P. rewrite (Y Hr). 
      match goal with |- context [if stat_ ?t then _ else _] => change t with (slashed (firstn (size - 1) (mod_path ++ "/"%char :: f ++ list_ascii_of_string ".x64.so"))) end.
      revert P. destruct (stat_ _); intros P; exact P.
Qed.

Lemma load_plugin_spec s f size s' good al : reachable s -> sane f -> 0 < size ->
  load_plugin stat_ lib mod_path junk s f size = Some (s', (good, al)) ->
  (reachable s' /\ kept s s') /\ exists full o, plugin_path stat_ mod_path (size - 1) f full /\ outcome_of s full s' o /\
    good = negb (failed o) /\ al = (present o || broken o) /\ n_running s' = n_running s + gain o /\ o <> Nothing.
Proof.
  intros R SN Sz E. unfold load_plugin in E. destruct (full_path f size SN Sz) as (b & k & full & E1 & E2 & PP). rewrite E1, E2 in E.
  destruct (Load s full (lib s full)) as [[s1 [id a1]]|] eqn:L; [|discriminate].
  destruct (Load_outcome _ _ _ _ _ _ R L) as (R' & M & o & a & p & x & F & G & Sx & OO & LX & AL & NN).
  rewrite M, F, G, Sx in E. injection E as -> <- <-. split; [split; [exact R'|exact (Load_kept _ _ _ _ _ _ R L)]|]. exists full, o. split; [exact PP|]. split; [exact OO|]. split; [exact LX|]. split; [exact AL|].
  split; [exact NN|]. intros ->. inversion OO.
Qed.
Lemma load_plugin_defined s f size : reachable s -> SafeX None s -> behaves lib -> sane f -> 0 < size ->
  exists s' r, load_plugin stat_ lib mod_path junk s f size = Some (s', r) /\ SafeX None s'.
Proof.
  intros R SX B SN Sz. unfold load_plugin. destruct (full_path f size SN Sz) as (b & k & full & E1 & E2 & PP). rewrite E1, E2.
  destruct (B s full) as [B1 B2]. destruct (Load_ok s full (lib s full) (reachable_Good _ R) SX B1 B2) as (s1 & [id al] & L & SX1). rewrite L.
  destruct (Load_outcome _ _ _ _ _ _ R L) as (R' & M & o & a & p & x & F & G & Sx & OO & LX & AL & NN).
  rewrite M, F, G, Sx. eauto.
Qed.

(** ** The directory *)
Lemma lower_eq c v V : In (v, V) [(".", "."); ("v", "V"); ("d", "D"); ("f", "F")]%char ->
  Ascii.eqb (tolower c) (tolower v) = (Ascii.eqb c v || Ascii.eqb c V).
Proof.
  intros I. destruct c as [[] [] [] [] [] [] [] []]; destruct I as [E|[E|[E|[E|[]]]]]; injection E as <- <-; reflexivity.
Qed.
Lemma ends4 (n : str) : 4 <= length n -> exists b p v d f, n = b ++ [p; v; d; f] /\ skipn (length n - 4) n = [p; v; d; f].
Proof.
  intros L. destruct (skipn (length n - 4) n) as [|p [|v [|d [|f [|x r]]]]] eqn:E.
  1-4,6: apply (f_equal (@List.length _)) in E; rewrite skipn_length in E; cbn [length] in E; lia.
  exists (firstn (length n - 4) n), p, v, d, f. split; [|reflexivity]. rewrite <- E. symmetry. apply firstn_skipn.
Qed.
Lemma is_vdf_name n : is_vdf n = vdf_name n.
Proof.
  unfold is_vdf. destruct (4 <=? length n) eqn:L.
  - apply Nat.leb_le in L. destruct (ends4 n L) as (b & p & v & d & f & -> & Sk). rewrite Sk.
    assert (H : forall x, length x < 4 -> str_eqb (b ++ [p; v; d; f]) x = false).
    { intros x Lx. unfold str_eqb. destruct (list_eq_dec _ _ _) as [e|e]; [|reflexivity]. rewrite <- e in Lx. rewrite app_length in Lx. cbn [length] in Lx. lia. }
    rewrite !H by (cbn; lia). cbn [negb andb]. unfold vdf_name. rewrite rev_app_distr. cbn [rev app].
    unfold stricmp_eq, DOT_VDF. cbn [map].
    rewrite <- (lower_eq v "v" "V"), <- (lower_eq d "d" "D"), <- (lower_eq f "f" "F") by (cbn; tauto).
    assert (LP : Ascii.eqb p "." = Ascii.eqb (tolower p) (tolower ".")) by (rewrite (lower_eq p "." "."); [destruct (Ascii.eqb p "."); reflexivity|cbn; tauto]).
    rewrite LP. clear.
    generalize (tolower p), (tolower v), (tolower d), (tolower f). intros p' v' d' f'. cbn [tolower].
    unfold str_eqb. destruct (list_eq_dec _ _ _) as [e|e].
    + injection e as -> -> -> ->. reflexivity.
    + symmetry. apply not_true_is_false. intros C. apply e. repeat (apply andb_prop in C; destruct C as [C ?]).
      repeat match goal with X : Ascii.eqb _ _ = true |- _ => apply Ascii.eqb_eq in X end. subst. reflexivity.
  - apply Nat.leb_gt in L. rewrite andb_false_r. cbn [andb]. unfold vdf_name. assert (Lr : length (rev n) < 4) by (rewrite rev_length; exact L).
    destruct (rev n) as [|a [|b [|c [|d r]]]]; try reflexivity. cbn [length] in Lr. lia.
Qed.

Definition skips (o : outcome) : bool := present o || broken o.
Lemma count_cons g o os : count g (o :: os) = (if g o then 1 else 0) + count g os.
Proof. unfold count. cbn [filter]. destruct (g o); reflexivity. Qed.

Variable dir : str.
Hypothesis mod_normal : normal mod_path.
Hypothesis dir_abs : RelSpec.absolute dir.
Hypothesis dir_clean : ~ In NUL dir /\ ~ In "\"%char dir.
Hypothesis kv_sane : kv_ok kv.
Notation fits := (fits mod_path dir MAX_PATH).

Lemma path_of n : fits n -> exists pb k rel, mm_PathFormat (junk MAX_PATH) MAX_PATH (Formatted (dir ++ "/"%char :: n)) = Some (pb, k) /\
  cstr pb = Some (dir ++ "/"%char :: n) /\ relatize access_ (MAX_PATH * 2) mod_path (dir ++ "/"%char :: n) = Some (Some rel) /\
  denote (mod_path ++ "/"%char :: rel) = denote (dir ++ "/"%char :: n).
Proof.
  intros (N1 & N2 & L1 & L2).
  destruct (mm_PathFormat_spec (junk MAX_PATH) MAX_PATH (dir ++ "/"%char :: n)) as (pb & k & s & E & C & _ & _ & _ & Es & _).
  { lia. } { rewrite junk_len. lia. } { intros C. apply in_app_or in C. destruct C as [C|[C|C]]; [apply (proj1 dir_clean C)|discriminate|contradiction]. }
  assert (LL : length (dir ++ "/"%char :: n) = length dir + 1 + length n) by (rewrite app_length; cbn [length]; lia).
  assert (ES : s = dir ++ "/"%char :: n).
  { rewrite Es, firstn_all2 by lia. rewrite <- (map_id (dir ++ "/"%char :: n)) at 2. apply map_ext_in. intros c Ic.
    destruct (Ascii.eqb_spec c "\") as [->|]; [|reflexivity]. exfalso. apply in_app_or in Ic. destruct Ic as [Ic|[Ic|Ic]]; [apply (proj2 dir_clean Ic)|discriminate|contradiction]. }
  destruct (C37_relatize access_ (MAX_PATH * 2) mod_path (dir ++ "/"%char :: n) mod_normal) as (rel & Er & Dr).
  { destruct dir_abs as (t & ->). exists (t ++ "/"%char :: n). reflexivity. } { lia. }
  exists pb, k, rel. rewrite ES in C. split; [exact E|]. split; [exact C|]. split; [exact Er|exact Dr].
Qed.

Lemma provider_spec rel : exists r, provider_ProcessVDF baseFs kv junk rel = Some r /\
  match (if baseFs then kv rel else None) with
  | Some (Some f, a) => r = Some (firstn 254 f, firstn 31 (match a with Some a => a | None => [] end))
  | _ => r = None
  end.
Proof.
  unfold provider_ProcessVDF. destruct baseFs; cbn [negb]; [|eauto]. destruct (kv rel) as [[[f|] a]|] eqn:K; eauto.
  destruct (kv_sane _ _ _ K) as (_ & NF & NA).
  destruct (FormatArgs_spec (junk FILE_SIZE) FILE_SIZE f) as (fb & k & E & C & _); [unfold FILE_SIZE; lia|rewrite junk_len; lia|exact NF|]. rewrite E.
  destruct a as [x|].
  - destruct (FormatArgs_spec (junk ALIAS_SIZE) ALIAS_SIZE x) as (ab & k' & E' & C' & _); [unfold ALIAS_SIZE; lia|rewrite junk_len; lia|apply NA; reflexivity|].
    rewrite E', C, C'. eauto.
  - destruct (FormatArgs_spec (junk ALIAS_SIZE) ALIAS_SIZE []) as (ab & k' & E' & C' & _); [unfold ALIAS_SIZE; lia|rewrite junk_len; lia|intros []|].
    rewrite E', C, C'. eauto.
Qed.

Lemma pair_inj {A B} (x y : A) (u v : B) : Some (x, u) = Some (y, v) -> x = y /\ u = v.
Proof. intros E. injection E as -> ->. auto. Qed.
Notation visit := (vdf_visit stat_ baseFs kv mod_path dir).
Lemma vdf_step w n w' success skip rel : reachable (mgr w) ->
  denote (mod_path ++ "/"%char :: rel) = denote (dir ++ "/"%char :: n) ->
  process_vdf stat_ baseFs kv lib mod_path junk w rel = Some (w', (success, skip)) ->
  (reachable (mgr w') /\ kept (mgr w) (mgr w')) /\ exists o, visit w n w' o /\ skip = skips o /\ (skip = false -> success = newly o) /\ n_running (mgr w') = n_running (mgr w) + gain o.
Proof.
  intros R D E. unfold process_vdf in E. destruct (provider_spec rel) as (r & P & Hr). rewrite P in E.
  destruct r as [[f a]|].
  - destruct (if baseFs then kv rel else None) as [[[f0|] a0]|] eqn:K; try discriminate. apply pair_inj in Hr. destruct Hr as [Hf Ha]. subst f.
    assert (SN : sane (firstn 254 f0)) by (destruct baseFs; [|discriminate]; exact (proj1 (kv_sane _ _ _ K))).
    set (w1 := match a with [] => w | _ => _ end) in E.
    assert (M1 : mgr w1 = mgr w) by (unfold w1; destruct a; reflexivity).
    destruct (load_plugin stat_ lib mod_path junk (mgr w1) (firstn 254 f0) 255) as [[s [good al]]|] eqn:L; [|discriminate]. rewrite M1 in L.
    assert (Sz : 0 < 255) by lia.
    destruct (load_plugin_spec _ _ _ _ _ _ R SN Sz L) as ((R' & K1) & full & o & PP & OO & GD & AL & NN & NO).
    injection E as Ew <- <-.
    assert (Mw : mgr w' = s) by (rewrite <- Ew; destruct good; reflexivity).
    split; [rewrite Mw; split; [exact R'|exact K1]|]. exists o. split; [|split; [exact AL|split; [|rewrite Mw; exact NN]]].
    + exists rel. split; [exact D|]. rewrite K. split; [|split].
      * rewrite <- Ha, <- Ew. unfold w1. destruct good, a; reflexivity.
      * exists full. rewrite Mw. split; [exact PP|exact OO].
      * rewrite <- Ew. assert (O1 : out w1 = out w) by (unfold w1; destruct a; reflexivity).
        rewrite GD. destruct (failed o); cbn [negb tell set_mgr out]; rewrite O1; [reflexivity|rewrite app_nil_r; reflexivity].
    + intros A. rewrite AL in A. rewrite GD. destruct o as [|[]| |[]]; try reflexivity; try discriminate. congruence.
  - injection E as <- <- <-. split; [split; [exact R|apply kept_refl]|]. exists Nothing. split; [|split; [reflexivity|split; [reflexivity|unfold gain; cbn; lia]]].
    exists rel. split; [exact D|]. destruct (if baseFs then kv rel else None) as [[[f0|] a0]|]; try discriminate; auto.
Qed.

Lemma vdf_loop_spec : forall names w rel t k w' t' k', reachable (mgr w) -> Forall fits names ->
  vdf_loop stat_ access_ baseFs kv lib mod_path MAX_PATH junk w dir rel names t k = Some (w', (t', k')) ->
  (reachable (mgr w') /\ kept (mgr w) (mgr w')) /\ exists os, visits visit w (filter vdf_name names) w' os /\
    t' = t + count newly os /\ k' = k + count skips os /\ n_running (mgr w') = n_running (mgr w) + count (fun o => newly o || revived o) os.
Proof.
  induction names as [|n names IH]; intros w rel t k w' t' k' R F E; cbn [vdf_loop] in E.
  - injection E as <- <- <-. split; [split; [exact R|apply kept_refl]|]. exists []. split; [constructor|]. cbn. lia.
  - inversion F as [|? ? Fn Fs]; subst. cbn [filter]. rewrite <- is_vdf_name. destruct (is_vdf n); cbn [negb] in E; [|exact (IH _ _ _ _ _ _ _ R Fs E)].
    destruct (path_of n Fn) as (pb & kk & r & E1 & E2 & E3 & D). rewrite E1, E2, E3 in E.
    destruct (process_vdf stat_ baseFs kv lib mod_path junk w r) as [[w1 [success skip]]|] eqn:P; [|discriminate].
    destruct (vdf_step _ _ _ _ _ _ R D P) as ((R1 & K1) & o & V & SK & SU & NN).
    assert (E' : vdf_loop stat_ access_ baseFs kv lib mod_path MAX_PATH junk w1 dir (Some r) names (t + (if newly o then 1 else 0)) (k + (if skips o then 1 else 0)) = Some (w', (t', k'))).
    { destruct skip.
      - rewrite <- SK. replace (newly o) with false by (destruct o as [|[]| |[]]; try reflexivity; discriminate). rewrite Nat.add_0_r, Nat.add_1_r. exact E.
      - rewrite <- SK, <- (SU eq_refl), Nat.add_0_r. destruct success; rewrite ?Nat.add_1_r, ?Nat.add_0_r; exact E. }
    destruct (IH _ _ _ _ _ _ _ R1 Fs E') as ((R2 & K2) & os & VS & T & K & N2). split; [split; [exact R2|exact (kept_trans _ _ _ K1 K2)]|]. exists (o :: os).
    split; [econstructor; eassumption|]. rewrite !count_cons. unfold gain in NN. lia.
Qed.

Lemma file_events_spec : forall evs w t k w' t' k', reachable (mgr w) -> 0 < PATH_SIZE ->
  Forall sane_event evs ->
  file_events stat_ lib mod_path PATH_SIZE junk w evs t k = Some (w', (t', k')) ->
  (reachable (mgr w') /\ kept (mgr w) (mgr w')) /\ exists os, visits (line_visit stat_ mod_path PATH_SIZE) w evs w' os /\
    t' = t + count newly os /\ k' = k + count (fun o => present o || revived o) os /\ n_running (mgr w') = n_running (mgr w) + count (fun o => newly o || revived o) os.
Proof.
  induction evs as [|e evs IH]; intros w t k w' t' k' R Sz F E; cbn [file_events] in E.
  - injection E as <- <- <-. split; [split; [exact R|apply kept_refl]|]. exists []. split; [constructor|]. cbn. lia.
  - inversion F as [|? ? Fn Fs]; subst. destruct e as [a v|f].
    + assert (R1 : reachable (mgr (set_als (SetAlias (als w) a v) w))) by exact R.
      destruct (IH _ _ _ _ _ _ R1 Sz Fs E) as (R2 & os & VS & T & K & N). split; [exact R2|]. exists (Nothing :: os).
      split; [econstructor; [|exact VS]; split; reflexivity|]. rewrite !count_cons. cbn [newly present revived orb] in *. cbn [mgr set_als] in N. lia.
    + destruct (load_plugin stat_ lib mod_path junk (mgr w) f PATH_SIZE) as [[s [good al]]|] eqn:L; [|discriminate].
      destruct (load_plugin_spec _ _ _ _ _ _ R Fn Sz L) as ((R1 & K1) & full & o & PP & OO & GD & AL & NN & NO).
      set (w1 := if good then set_mgr s w else tell (MFailed f) (set_mgr s w)).
      assert (M1 : mgr w1 = s) by (unfold w1; destruct good; reflexivity).
      assert (E' : file_events stat_ lib mod_path PATH_SIZE junk w1 evs (t + (if newly o then 1 else 0)) (k + (if present o || revived o then 1 else 0)) = Some (w', (t', k'))).
      { unfold w1. rewrite GD, AL in *. destruct o as [|[]| |[]]; cbn [failed negb present broken revived newly orb] in *; rewrite ?Nat.add_0_r, ?Nat.add_1_r; try exact E. congruence. }
      assert (R1' : reachable (mgr w1)) by (rewrite M1; exact R1).
      destruct (IH _ _ _ _ _ _ R1' Sz Fs E') as ((R2 & K2) & os & VS & T & K & N). rewrite M1 in K2. split; [split; [exact R2|exact (kept_trans _ _ _ K1 K2)]|]. exists (o :: os).
      split.
      { econstructor; [|exact VS]. cbn [line_visit]. split; [|split].
        - unfold w1. destruct good; reflexivity.
        - exists full. rewrite M1. auto.
        - unfold w1. rewrite GD. destruct (failed o); cbn [negb]; [reflexivity|]. rewrite app_nil_r. reflexivity. }
      rewrite !count_cons. rewrite M1 in N. unfold gain in NN. lia.
Qed.

(** ** The run is defined *)
Lemma process_vdf_defined w rel : reachable (mgr w) -> SafeX None (mgr w) -> behaves lib ->
  exists w' r, process_vdf stat_ baseFs kv lib mod_path junk w rel = Some (w', r) /\ SafeX None (mgr w').
Proof.
  intros R SX B. unfold process_vdf. destruct (provider_spec rel) as (r & P & Hr). rewrite P. destruct r as [[f a]|]; [|eauto].
  destruct (if baseFs then kv rel else None) as [[[f0|] a0]|] eqn:K; try discriminate. apply pair_inj in Hr. destruct Hr as [Hf Ha]. subst f.
  assert (SN : sane (firstn 254 f0)) by (destruct baseFs; [|discriminate]; exact (proj1 (kv_sane _ _ _ K))).
  set (w1 := match a with [] => w | _ => _ end).
  assert (M1 : mgr w1 = mgr w) by (unfold w1; destruct a; reflexivity). rewrite M1.
  assert (Sz : 0 < 255) by lia.
  destruct (load_plugin_defined (mgr w) (firstn 254 f0) 255 R SX B SN Sz) as (s & [good al] & L & S1). rewrite L.
  eexists _, _. split; [reflexivity|]. destruct good; exact S1.
Qed.
Lemma vdf_loop_defined : forall names w rel t k, reachable (mgr w) -> SafeX None (mgr w) -> behaves lib -> Forall fits names ->
  exists w' r, vdf_loop stat_ access_ baseFs kv lib mod_path MAX_PATH junk w dir rel names t k = Some (w', r).
Proof.
  induction names as [|n names IH]; intros w rel t k R SX B F; cbn [vdf_loop]; [eauto|].
  inversion F as [|? ? Fn Fs]; subst. destruct (is_vdf n); cbn [negb]; [|exact (IH _ _ _ _ R SX B Fs)].
  destruct (path_of n Fn) as (pb & kk & r & E1 & E2 & E3 & D). rewrite E1, E2, E3.
  destruct (process_vdf_defined w r R SX B) as (w1 & [success skip] & P & S1). rewrite P.
  destruct (vdf_step _ _ _ _ _ _ R D P) as ((R1 & _) & _). destruct skip; [|destruct success]; exact (IH _ _ _ _ R1 S1 B Fs).
Qed.
Lemma file_events_defined : forall evs w t k, reachable (mgr w) -> SafeX None (mgr w) -> behaves lib -> 0 < PATH_SIZE ->
  Forall sane_event evs ->
  exists w' r, file_events stat_ lib mod_path PATH_SIZE junk w evs t k = Some (w', r) /\ SafeX None (mgr w').
Proof.
  induction evs as [|e evs IH]; intros w t k R SX B Sz F; cbn [file_events]; [eauto|].
  inversion F as [|? ? Fn Fs]; subst. destruct e as [a v|f]; [apply IH; assumption|].
  destruct (load_plugin_defined (mgr w) f PATH_SIZE R SX B Fn Sz) as (s & [good al] & L & S1). rewrite L.
  destruct (load_plugin_spec _ _ _ _ _ _ R Fn Sz L) as ((R1 & _) & _).
  destruct good; [destruct al|]; apply IH; assumption.
Qed.
End Run.
