(** C41, C43, C44, C45, C47, C48: the plugin manager. *)
From Coq Require Import List ZArith Bool Arith Ascii String Lia.
From Verif Require Import Base ListModel StrModel StrSpec StrProofs PlugModel PlugSpec PlugProofs PlugRun PlugNote.
Import ListNotations.
Local Open Scope list_scope.
Local Open Scope nat_scope.
Notation length := List.length.

Definition f_ (s : string) : str := list_ascii_of_string s.
(** A library that is there, exports an interface numbered [api] and answers [ok] to Load. *)
Definition lib_ (api : nat) (acts : list act) (ok : bool) : loadinfo :=
  mkLI true true true (Some api) true false None 17 (acts, ok) [].

(** ** Facts about the observations *)
Lemma reachable_Good s : reachable s -> Good s.
Proof. intros (ops & rs & R). exact (proj1 (run_Good _ _ _ _ init_Good R)). Qed.
Lemma listed_in s p : In p (listed s) <-> exists a, In a (plugins s) /\ getp s a = Some p.
Proof.
  unfold listed. rewrite in_flat_map. split.
  - intros (a & I & J). exists a. split; [exact I|]. destruct (getp s a) as [q|]; [|destruct J]. destruct J as [->|[]]. reflexivity.
  - intros (a & I & G). exists a. split; [exact I|]. rewrite G. left. reflexivity.
Qed.
Lemma listed_map s l : (forall a, In a l -> exists p, getp s a = Some p) ->
  map Some (flat_map (fun a => match getp s a with Some p => [p] | None => [] end) l) = map (getp s) l.
Proof.
  induction l as [|a l IH]; intros T; [reflexivity|]. cbn [flat_map map]. destruct (T a (or_introl eq_refl)) as (p & ->). cbn [app map]. f_equal. apply IH. intros b I. apply T. right. exact I.
Qed.
Lemma nodup_flat {A B} (f : A -> list B) : forall l, NoDup l -> (forall a, NoDup (f a)) -> (forall a b x, In a l -> In b l -> In x (f a) -> In x (f b) -> a = b) -> NoDup (flat_map f l).
Proof.
  induction l as [|a l IH]; intros N F D; [constructor|]. cbn [flat_map]. inversion N; subst.
  assert (NA : forall x, In x (f a) -> ~ In x (flat_map f l)).
  { intros x I J. apply in_flat_map in J. destruct J as (b & Ib & J). assert (a = b) by (apply (D a b x); auto; [left; reflexivity|right; exact Ib]). subst. contradiction. }
  assert (NL : NoDup (flat_map f l)) by (apply IH; auto; intros b c x Ib Ic; apply D; right; assumption).
  specialize (F a). revert F NA. generalize (f a) as l1. induction l1 as [|x l1 IH1]; intros F NA; cbn [app]; [exact NL|]. inversion F; subst. constructor.
  - rewrite in_app_iff. intros [C|C]; [contradiction|]. apply (NA x); [left; reflexivity|exact C].
  - apply IH1; [assumption|]. intros y I. apply NA. right. exact I.
Qed.
Lemma map_flat {A B C} (g : B -> C) (f : A -> list B) l : map g (flat_map f l) = flat_map (fun a => map g (f a)) l.
Proof. induction l as [|a l IH]; [reflexivity|]. cbn [flat_map]. rewrite map_app, IH. reflexivity. Qed.

(** ** C41.  In every state that a history leads to: every entry of the list is an
    object that exists, ids are positive and pairwise different. *)
Theorem C41_ids_distinct : forall s, reachable s ->
  length (listed s) = length (plugins s) /\ NoDup (ids s) /\ (forall id, In id (ids s) -> (1 <= id < last s)%Z).
Proof.
  intros s R. apply reachable_Good in R. destruct R as (I & _ & _). split; [|split].
  - rewrite <- (map_length Some), <- (map_length (getp s) (plugins s)). unfold listed. rewrite listed_map; [reflexivity|]. apply I.
  - unfold ids, listed. rewrite map_flat. apply nodup_flat; [apply I| |].
    + intros a. destruct (getp s a); cbn [map]; [repeat constructor; intros []|constructor].
    + intros a b x Ia Ib. destruct (getp s a) as [p|] eqn:Ga; [|intros []]. destruct (getp s b) as [q|] eqn:Gb; [|intros _ []]. cbn [map]. intros [<-|[]] [E|[]].
      exact (iv_ids _ I a b p q Ia Ib Ga Gb (eq_sym E)).
  - intros id J. apply in_map_iff in J. destruct J as (p & <- & J). apply listed_in in J. destruct J as (a & Ia & G). destruct (iv_id _ I a p Ia G). lia.
Qed.
Print Assumptions C41_ids_distinct.

Lemma ids_in s id : In id (ids s) <-> exists a p, In a (plugins s) /\ getp s a = Some p /\ p_id p = id.
Proof.
  unfold ids. rewrite in_map_iff. split.
  - intros (p & E & J). apply listed_in in J. destruct J as (a & I & G). eauto.
  - intros (a & p & I & G & E). exists p. split; [exact E|]. apply listed_in. eauto.
Qed.

(** An id that has left the list never appears in it again. *)
Theorem C41_gone_for_good : forall ops0 ops1 ops2 s0 s1 s2 r0 r1 r2 id,
  run init ops0 = Some (s0, r0) -> run s0 ops1 = Some (s1, r1) -> run s1 ops2 = Some (s2, r2) ->
  In id (ids s0) -> ~ In id (ids s1) -> ~ In id (ids s2).
Proof.
  intros ops0 ops1 ops2 s0 s1 s2 r0 r1 r2 id R0 R1 R2 I0 N1 I2.
  destruct (run_Good _ _ _ _ init_Good R0) as [G0 _]. destruct (run_Good _ _ _ _ G0 R1) as [G1 O1]. destruct (run_Good _ _ _ _ G1 R2) as [_ O2].
  apply ids_in in I0, I2. destruct I0 as (a & p & Ia & Gp & Ep). destruct I2 as (b & q & Ib & Gq & Eq). pose proof (iv_id _ (proj1 G0) a p Ia Gp).
  destruct O1 as [L1 _]. destruct O2 as [_ O2]. destruct (O2 b q Ib Gq) as [(c & t & Ic & T & E & _)|L]; [|lia]. apply N1. apply ids_in. exists c, t. repeat split; auto. congruence.
Qed.
Print Assumptions C41_gone_for_good.

(** A file that was not listed gets an id that no load before returned and that
    no plugin had. *)
Theorem C41_new_id : forall ops s rs file source li s' id already,
  run init ops = Some (s, rs) -> step s (OLoad file source li) = Some (s', RLoad id already) ->
  (forall p, In p (listed s) -> is_loaded p -> ~ same_path file (p_file p)) ->
  id = last s /\ In id (ids s') /\ ~ In id (ids s) /\
  (forall id' al, In (RLoad id' al) rs -> id' <> id).
Proof.
  intros ops s rs file source li s' id already R E NL. destruct (run_Good _ _ _ _ init_Good R) as [GS _]. pose proof GS as (I & S & F).
  assert (X : id = last s /\ In id (ids s')).
  { cbn [step] in E. destruct (Load s file li) as [[s1 [i al]]|] eqn:L; [|discriminate]. cbn [fst snd] in E. injection E as <- <- _.
    unfold Load in L. destruct (load_scan s file (plugins s)) as [[[l al'] e]|] eqn:Sc; [|discriminate]. destruct (load_scan_spec _ _ _ _ _ _ Sc) as (J & N & _ & _ & X).
    destruct e as [k|].
    - destruct X as (_ & a & p & x & Ia & G & _ & Sx & Lx & SF). exfalso. apply (NL p); [apply listed_in; eauto| |exact SF]. unfold is_loaded. destruct x; try discriminate; auto.
    - destruct (_Load (set_plugins l s) file li) as [[s2 a]|] eqn:L1; [|discriminate].
      assert (I1 : Inv (set_plugins l s)) by (apply Inv_sub; auto; apply N, I).
      destruct (_Load_spec _ _ _ _ _ I1 L1) as (_ & _ & P & _ & _ & _ & _ & p & x & G & Ip & _). rewrite G in L. destruct (iter_plevent s2 OnLoad (p_id p)) as [s3|] eqn:It; [|discriminate]. injection L as <- <- _.
      split; [exact Ip|]. apply iter_same in It. destruct (same_getp _ _ _ _ It G) as (p' & G' & C). apply ids_in. exists a, p'. split; [|split; [exact G'|exact (core_id _ _ C)]].
      rewrite <- (sm_plugins _ _ It), P. apply in_or_app. right. left. reflexivity. }
  destruct X as [-> X]. split; [reflexivity|]. split; [exact X|]. split.
  - intros C. apply ids_in in C. destruct C as (a & p & Ia & G & Ep). pose proof (iv_id _ I a p Ia G). lia.
  - intros id' al J.
    assert (H : forall ops s0 s1 rs, Good s0 -> run s0 ops = Some (s1, rs) -> In (RLoad id' al) rs -> (id' < last s1)%Z).
    { clear. induction ops as [|o ops IH]; intros s0 s1 rs G R J; cbn [run] in R; [injection R as <- <-; destruct J|].
      destruct (step s0 o) as [[s2 r]|] eqn:St; [|discriminate]. cbn [fst snd] in R. destruct (run s2 ops) as [[s3 rs']|] eqn:R'; [|discriminate]. injection R as <- <-.
      destruct (step_Good _ _ _ _ G St) as [G2 O2]. destruct J as [->|J]; [|exact (IH _ _ _ G2 R' J)]. destruct (run_Good _ _ _ _ G2 R') as [_ [L3 _]]. cbn [fst].
      assert (B : (id' < last s2)%Z); [|lia]. destruct o; cbn [step] in St; try (destruct (Unload s0 id force c) as [[? ?]|]; discriminate); try (destruct (Pause s0 id c) as [[? ?]|]; discriminate);
        try (destruct (Unpause s0 id c) as [[? ?]|]; discriminate); try (destruct (Retry s0 id li c) as [[? ?]|]; discriminate); try discriminate.
      - destruct (Load s0 file li) as [[s4 [i al']]|] eqn:L; [|discriminate]. cbn [fst snd] in St. injection St as <- <- <-.
        unfold Load in L. destruct (load_scan s0 file (plugins s0)) as [[[l al2] e]|] eqn:Sc; [|discriminate]. destruct (load_scan_spec _ _ _ _ _ _ Sc) as (K & N & _ & _ & X). pose proof (proj1 G) as I0.
        destruct e as [k|].
        + injection L as <- <- _. destruct X as (_ & a & p & x & Ia & Ga & <- & _). cbn [last set_plugins]. exact (proj2 (iv_id _ I0 a p Ia Ga)).
        + destruct (_Load (set_plugins l s0) file li) as [[s5 a]|] eqn:L1; [|discriminate].
          assert (I1 : Inv (set_plugins l s0)) by (apply Inv_sub; auto; apply N, I0).
          destruct (_Load_spec _ _ _ _ _ I1 L1) as (_ & _ & P & LL & _ & _ & _ & p & x & Ga & Ip & _). rewrite Ga in L. destruct (iter_plevent s5 OnLoad (p_id p)) as [s6|] eqn:It; [|discriminate]. injection L as <- <- _.
          apply iter_same in It. rewrite <- (sm_last _ _ It). cbn [last set_plugins] in *. lia.
      - destruct (UnloadAll (length (plugins s0)) s0 cs) as [[[? ?]|]|]; discriminate.
      - destruct (SetAllLoaded s0 cs); discriminate.
      - destruct (existsb (Nat.eqb a) (plugins s0)); [|discriminate]. destruct (getp s0 a) as [p|]; [|discriminate]. destruct (p_status p) as [x|]; [|discriminate]. destruct (loaded x); [|discriminate]. destruct (run_acts a s0 acts); discriminate.
      - destruct (depth s0) as [|[|n]]; try discriminate. destruct (resolve_pending false (set_depth 0 s0)); discriminate.
      - destruct (resolve_pending true s0); discriminate. }
    pose proof (H ops init s rs init_Good R J). lia.
Qed.
Print Assumptions C41_new_id.

(** As long as an id is listed it stands for the same file. *)
Theorem C41_id_means_one_file : forall ops0 ops1 s0 s1 r0 r1 p q,
  run init ops0 = Some (s0, r0) -> run s0 ops1 = Some (s1, r1) ->
  In p (listed s0) -> In q (listed s1) -> p_id q = p_id p -> p_file q = p_file p.
Proof.
  intros ops0 ops1 s0 s1 r0 r1 p q R0 R1 Ip Iq E. destruct (run_Good _ _ _ _ init_Good R0) as [G0 _]. destruct (run_Good _ _ _ _ G0 R1) as [_ [_ O]].
  apply listed_in in Ip, Iq. destruct Ip as (a & Ia & Ga). destruct Iq as (b & Ib & Gb). pose proof (proj1 G0) as I. pose proof (iv_id _ I a p Ia Ga).
  destruct (O b q Ib Gb) as [(c & t & Ic & T & E1 & E2)|L]; [|lia]. assert (c = a) by (apply (iv_ids _ I c a t p); auto; congruence). subst c. congruence.
Qed.
Print Assumptions C41_id_means_one_file.

(** The statement is false for the id that a plugin is told in its Load callback
    (the id it uses for its hooks): after a retry the plugin is listed under
    another id than it was told, and the id it was told goes to the next plugin. *)
Definition retry_ops : list op :=
  [OLoad (f_ "a.so") 0 (lib_ 10 [] false); ORetry 1 (lib_ 11 [AHook 7] true) ([], true); OLoad (f_ "b.so") 0 (lib_ 12 [AHook 8] true)].
Theorem C41_told_id_refuted : exists ops s rs p q,
  run init ops = Some (s, rs) /\ In p (listed s) /\ In q (listed s) /\ p_file p <> p_file q /\
  is_loaded p /\ is_loaded q /\ p_told p = p_told q /\ p_told p = Some (p_id q) /\ p_told p <> Some (p_id p).
Proof.
  exists retry_ops. eexists _, _, _, _. split; [vm_compute; reflexivity|]. split; [left; reflexivity|]. split; [right; left; reflexivity|].
  repeat split; try (left; reflexivity); discriminate.
Qed.
Print Assumptions C41_told_id_refuted.

Example C41_example : exists s rs,
  run init [OLoad (f_ "a.so") 0 (lib_ 10 [] true); OLoad (f_ "b.so") 0 (lib_ 11 [] true); OUnload 1 false ([], true);
            OLoad (f_ "a.so") 0 (lib_ 12 [] true); OLoad (f_ "c.so") 0 (lib_ 13 [] false); OLoad (f_ "c.so") 0 (lib_ 13 [] true)] = Some (s, rs) /\
  rs = [RLoad 1 false; RLoad 2 false; RBool true; RLoad 3 false; RLoad 4 false; RLoad 5 true] /\ ids s = [2; 3; 5]%Z.
Proof. eexists _, _. split; [vm_compute; reflexivity|]. split; reflexivity. Qed.

(** ** C43.  No two entries of the list have the same file, whatever their status. *)
Theorem C43_one_entry_per_file : forall s a b p q, reachable s ->
  In a (plugins s) -> In b (plugins s) -> getp s a = Some p -> getp s b = Some q -> same_path (p_file p) (p_file q) -> a = b.
Proof. intros s a b p q R Ia Ib Ga Gb E. apply reachable_Good in R. destruct R as (_ & _ & F). exact (F a b p q Ia Ib Ga Gb E). Qed.
Print Assumptions C43_one_entry_per_file.

(** Loading a file that is loaded: the existing id, [already], and nothing changes,
    in particular nobody is called. *)
Theorem C43_already : forall s p file source li, reachable s -> In p (listed s) -> is_loaded p -> same_path file (p_file p) ->
  step s (OLoad file source li) = Some (s, RLoad (p_id p) true).
Proof.
  intros s p file source li R Ip Lp SP. apply reachable_Good in R. destruct R as (I & S & F). apply listed_in in Ip. destruct Ip as (a & Ia & Ga).
  cbn [step]. unfold Load. destruct (load_scan_total s file (plugins s)) as ([[l al] e] & Sc).
  { intros b Ib. destruct (iv_get _ I b Ib) as (q & Q). exists q. split; [exact Q|exact (S b q Ib Q)]. }
  rewrite Sc. destruct (load_scan_spec _ _ _ _ _ _ Sc) as (J & N & D & _ & X).
  assert (LL : exists x, p_status p = Some x /\ loaded x = true) by (destruct Lp as [E|E]; rewrite E; eauto). destruct LL as (x & Sx & Lx).
  assert (Ia' : In a l).
  { destruct (in_dec Nat.eq_dec a l) as [C|C]; [exact C|]. destruct (D a Ia C) as (p' & x' & G' & S' & L' & _). congruence. }
  destruct e as [id|].
  - destruct X as (-> & b & q & y & Ib & Q & <- & _ & _ & SQ). assert (b = a) by (apply (F b a q p); auto; unfold same_file in SQ; rewrite <- SQ; exact SP). subst b.
    assert (q = p) by congruence. subst q.
    assert (l = plugins s).
    { assert (H : forall l0 l1 al1, (forall b, In b l0 -> In b (plugins s)) -> load_scan s file l0 = Some (l1, al1, Some (p_id p)) -> l1 = l0).
      { clear Sc J N D Ia'. induction l0 as [|b l0 IH]; intros l1 al1 Sub E; cbn [load_scan] in E; [discriminate|]. destruct (getp s b) as [q'|] eqn:Gb; [|discriminate].
        destruct (UTIL_PathCmp_spec file (p_file q')) as (r & Er & Hr). rewrite Er in E. destruct r.
        - assert (b = a) by (apply (F b a q' p); auto; [apply Sub; left; reflexivity|]; rewrite <- (proj1 Hr eq_refl); exact SP). subst b. assert (q' = p) by congruence. subst q'.
          rewrite Sx, Lx in E. injection E as <- _. reflexivity.
        - destruct (load_scan s file l0) as [[[l2 al2] e2]|] eqn:E2; [|discriminate]. injection E as <- <- E. subst e2. f_equal. eapply IH; [|reflexivity]. intros c Ic. apply Sub. right. exact Ic. }
      eapply H; [|exact Sc]. auto. }
    subst l. cbn [fst snd]. do 2 f_equal. destruct s; reflexivity.
  - exfalso. apply (X a p Ia' Ga). exact SP.
Qed.
Print Assumptions C43_already.

(** What [already] means: the file had an entry.  It can be an entry whose load had
    failed, and then the file is loaded, under a new id. *)
Theorem C43_already_means_entry : forall s file source li s' id already, reachable s ->
  step s (OLoad file source li) = Some (s', RLoad id already) ->
  (already = true <-> exists p, In p (listed s) /\ same_path file (p_file p)).
Proof.
  intros s file source li s' id already R E. apply reachable_Good in R. cbn [step] in E. destruct (Load s file li) as [[s1 [i al]]|] eqn:L; [|discriminate]. cbn [fst snd] in E. injection E as _ _ <-.
  unfold Load in L. destruct (load_scan s file (plugins s)) as [[[l al'] e]|] eqn:Sc; [|discriminate]. destruct (load_scan_spec _ _ _ _ _ _ Sc) as (_ & _ & _ & A & _).
  assert (al = al').
  { destruct e as [k|]; [injection L as _ _ <-; reflexivity|]. destruct (_Load _ file li) as [[s2 a]|]; [|discriminate]. destruct (getp s2 a) as [p|]; [|discriminate]. destruct (iter_plevent s2 OnLoad (p_id p)); [|discriminate]. injection L as _ _ <-. reflexivity. }
  subst al'. rewrite A. split.
  - intros (a & p & Ia & G & SF). exists p. split; [apply listed_in; eauto|exact SF].
  - intros (p & Ip & SF). apply listed_in in Ip. destruct Ip as (a & Ia & G). eauto.
Qed.
Print Assumptions C43_already_means_entry.

Example C43_example : exists s rs,
  run init [OLoad (f_ "x//a.so") 0 (lib_ 10 [] true); OLoad (f_ "b.so") 0 (lib_ 11 [] false); OLoad (f_ "x/a.so") 0 (lib_ 12 [] true); OLoad (f_ "b.so") 0 (lib_ 13 [] true)] = Some (s, rs) /\
  rs = [RLoad 1 false; RLoad 2 false; RLoad 1 true; RLoad 3 true] /\ map p_file (listed s) = [f_ "x//a.so"; f_ "b.so"].
Proof. eexists _, _. split; [vm_compute; reflexivity|]. split; reflexivity. Qed.

(** ** C44.  Aliases are a map: looking up gives the value that was set last, an
    empty value deletes, and no alias is stored twice. *)
Lemma str_eqb_true a b : str_eqb a b = true <-> a = b.
Proof. apply str_eqb_spec. Qed.
Lemma set_in_spec l : forall a v, NoDup (map fst l) ->
  match set_in l a v with
  | None => ~ In a (map fst l)
  | Some l' => In a (map fst l) /\ NoDup (map fst l') /\ (forall k, In k (map fst l') -> In k (map fst l)) /\
      (forall k, LookupAlias l' k = if list_eq_dec ascii_dec a k then match v with [] => None | _ => Some v end else LookupAlias l k)
  end.
Proof.
  induction l as [|[b w] l IH]; intros a v N; cbn [set_in map fst]; [intros []|]. cbn [map fst] in N. inversion N as [|? ? NI NL]; subst.
  destruct (str_eqb b a) eqn:E.
  - apply str_eqb_true in E. subst b. assert (NO : forall k, ~ In k (map fst l) -> LookupAlias l k = None).
    { clear. induction l as [|[b w] l IH]; intros k NI; cbn [LookupAlias]; [reflexivity|]. cbn [map fst In] in NI. destruct (str_eqb b k) eqn:E; [apply str_eqb_true in E; tauto|]. apply IH. tauto. }
    split; [left; reflexivity|]. destruct v as [|c v].
    + split; [exact NL|]. split; [intros k; right; assumption|]. intros k. cbn [LookupAlias]. destruct (list_eq_dec ascii_dec a k) as [->|D]; [apply NO; exact NI|].
      destruct (str_eqb a k) eqn:E; [apply str_eqb_true in E; contradiction|reflexivity].
    + split; [exact N|]. split; [auto|]. intros k. cbn [LookupAlias]. destruct (list_eq_dec ascii_dec a k) as [->|D].
      * assert (str_eqb k k = true) as -> by (apply str_eqb_true; reflexivity). reflexivity.
      * destruct (str_eqb a k) eqn:E; [apply str_eqb_true in E; contradiction|reflexivity].
  - assert (D : b <> a) by (intros C; apply str_eqb_true in C; congruence). specialize (IH a v NL). destruct (set_in l a v) as [l'|].
    + destruct IH as (I & N' & S & X). split; [right; exact I|]. cbn [map fst]. split; [constructor; [|exact N']; intros C; apply NI, S, C|]. split.
      * intros k [<-|J]; [left; reflexivity|right; apply S; exact J].
      * intros k. cbn [LookupAlias]. rewrite X. destruct (str_eqb b k) eqn:E'; [|reflexivity]. apply str_eqb_true in E'. subst k. destruct (list_eq_dec ascii_dec a b); [congruence|reflexivity].
    + intros [C|C]; [congruence|contradiction].
Qed.
Lemma lookup_app l k x v : LookupAlias (l ++ [(x, v)]) k = match LookupAlias l k with Some w => Some w | None => if str_eqb x k then Some v else None end.
Proof. induction l as [|[b w] l IH]; cbn [app LookupAlias]; [reflexivity|]. destruct (str_eqb b k); [reflexivity|exact IH]. Qed.
Lemma lookup_none l k : ~ In k (map fst l) -> LookupAlias l k = None.
Proof. induction l as [|[b w] l IH]; intros NI; cbn [LookupAlias]; [reflexivity|]. cbn [map fst In] in NI. destruct (str_eqb b k) eqn:E; [apply str_eqb_true in E; tauto|]. apply IH. tauto. Qed.
Lemma SetAlias_spec l a v : NoDup (map fst l) -> NoDup (map fst (SetAlias l a v)) /\
  (forall k, LookupAlias (SetAlias l a v) k = if list_eq_dec ascii_dec a k then match v with [] => None | _ => Some v end else LookupAlias l k).
Proof.
  intros N. unfold SetAlias. pose proof (set_in_spec l a v N) as X. destruct (set_in l a v) as [l'|]; [split; apply X|]. destruct v as [|c v].
  - split; [exact N|]. intros k. destruct (list_eq_dec ascii_dec a k) as [->|D]; [apply lookup_none; exact X|reflexivity].
  - rewrite map_app. split; [apply NoDup_snoc; assumption|]. intros k. rewrite lookup_app. destruct (list_eq_dec ascii_dec a k) as [->|D].
    + rewrite lookup_none by exact X. assert (str_eqb k k = true) as -> by (apply str_eqb_true; reflexivity). reflexivity.
    + destruct (LookupAlias l k); [reflexivity|]. destruct (str_eqb a k) eqn:E; [apply str_eqb_true in E; contradiction|reflexivity].
Qed.
Theorem C44_alias_map : forall hist k,
  let m := fold_left (fun m x => SetAlias m (fst x) (snd x)) hist [] in
  LookupAlias m k = alias_of (rev hist) k /\ NoDup (map fst m).
Proof.
  intros hist k. cbn zeta. revert k. induction hist as [|[a v] hist IH] using rev_ind; intros k; [split; [reflexivity|constructor]|].
  rewrite fold_left_app, rev_app_distr. cbn [fold_left rev app alias_of fst snd]. destruct (SetAlias_spec _ a v (proj2 (IH k))) as [N X]. split; [|exact N]. rewrite X, (proj1 (IH k)). reflexivity.
Qed.
Print Assumptions C44_alias_map.
(** No stored alias has an empty value. *)
Theorem C44_no_empty_value : forall hist k v,
  LookupAlias (fold_left (fun m x => SetAlias m (fst x) (snd x)) hist []) k = Some v -> v <> [].
Proof.
  intros hist k v E. rewrite (proj1 (C44_alias_map hist k)) in E. clear -E. induction (rev hist) as [|[a w] h IH]; cbn [alias_of] in E; [discriminate|].
  destruct (list_eq_dec ascii_dec a k); [|exact (IH E)]. destruct w; [discriminate|]. injection E as <-. discriminate.
Qed.
Print Assumptions C44_no_empty_value.
Example C44_example :
  let m := fold_left (fun m x => SetAlias m (fst x) (snd x)) [(f_ "sm", f_ "a.so"); (f_ "x", f_ "b.so"); (f_ "sm", f_ "c.so"); (f_ "x", [])] [] in
  LookupAlias m (f_ "sm") = Some (f_ "c.so") /\ LookupAlias m (f_ "x") = None /\ LookupAlias m (f_ "SM") = None /\ length m = 1.
Proof. repeat split. Qed.

(** ** C45.  Successful Load, Unload, Pause and Unpause are announced once to every
    listener of every other plugin and to nobody else; everything else is not
    announced. *)
Lemma others_eq s id : others s id = listeners_of_others s id.
Proof.
  unfold others, listeners_of_others, listed. induction (plugins s) as [|a l IH]; [reflexivity|]. cbn [flat_map]. rewrite IH. destruct (getp s a) as [p|]; [|reflexivity].
  cbn [app filter]. destruct (p_id p =? id)%Z; cbn [negb flat_map]; reflexivity.
Qed.
Lemma told_announced s s' k id : told_others s s' k id -> announced s s' k id.
Proof. intros (pre & E & N). exists pre. rewrite <- others_eq. split; [exact E|]. intros l k' i C. exact (N _ C Logic.I). Qed.
Lemma quiet_not s s' : quiet s s' -> not_announced s s'.
Proof. intros (pre & E & N). exists pre. split; [exact E|]. intros l k i C. exact (N _ C Logic.I). Qed.
Theorem C45_pause : forall s id c s' b, step s (OPause id c) = Some (s', RBool b) ->
  if b then announced s s' OnPause id else not_announced s s'.
Proof.
  intros s id c s' b E. cbn [step] in E. destruct (Pause s id c) as [[s1 r]|] eqn:P; [|discriminate]. injection E as <- <-. apply Pause_notes in P. destruct r; [apply told_announced|apply quiet_not]; exact P.
Qed.
Print Assumptions C45_pause.
Theorem C45_unpause : forall s id c s' b, step s (OUnpause id c) = Some (s', RBool b) ->
  if b then announced s s' OnUnpause id else not_announced s s'.
Proof.
  intros s id c s' b E. cbn [step] in E. destruct (Unpause s id c) as [[s1 r]|] eqn:P; [|discriminate]. injection E as <- <-. apply Unpause_notes in P. destruct r; [apply told_announced|apply quiet_not]; exact P.
Qed.
Print Assumptions C45_unpause.
Theorem C45_unload : forall s id force c s' b, step s (OUnload id force c) = Some (s', RBool b) ->
  if b then announced s s' OnUnload id else not_announced s s'.
Proof.
  intros s id force c s' b E. cbn [step] in E. destruct (Unload s id force c) as [[s1 r]|] eqn:P; [|discriminate]. injection E as <- <-. apply Unload_notes in P. destruct r; [apply told_announced|apply quiet_not]; exact P.
Qed.
Print Assumptions C45_unload.
(** Load announces under the id it returns, unless the file was loaded already:
    then nothing is called at all. *)
Theorem C45_load : forall s file source li s' id already, reachable s -> step s (OLoad file source li) = Some (s', RLoad id already) ->
  (In id (ids s) /\ log s' = log s) \/ (~ In id (ids s) /\ announced s s' OnLoad id).
Proof.
  intros s file source li s' id already R E. pose proof R as (ops & rs & Rn).
  destruct (reachable_Good _ R) as (I & S & F).
  destruct (load_scan_total s file (plugins s)) as ([[l al] e] & Sc).
  { intros b Ib. destruct (iv_get _ I b Ib) as (q & Q). exists q. split; [exact Q|exact (S b q Ib Q)]. }
  pose proof (load_scan_spec _ _ _ _ _ _ Sc) as (_ & _ & _ & _ & X).
  destruct e as [k|].
  - left. cbn [step] in E. unfold Load in E. rewrite Sc in E. injection E as <- <- _. destruct X as (_ & a & p & x & Ia & G & Ek & _). split; [apply ids_in; exists a, p; auto|reflexivity].
  - right. assert (N : forall p, In p (listed s) -> is_loaded p -> ~ same_path file (p_file p)).
    { intros p Ip Lp SP. pose proof (C43_already s p file source li R Ip Lp SP) as A. cbn [step] in A. unfold Load in A. rewrite Sc in A.
      destruct (_Load (set_plugins l s) file li) as [[s1 a]|] eqn:L1; [|discriminate]. destruct (_Load_spec _ _ _ _ _ (Inv_sub s l I (proj1 (proj2 (load_scan_spec _ _ _ _ _ _ Sc)) (iv_nodup _ I)) (proj1 (load_scan_spec _ _ _ _ _ _ Sc))) L1) as (_ & _ & _ & LL & _ & _ & _ & q & y & Gq & Eq & _).
      rewrite Gq in A. destruct (iter_plevent s1 OnLoad (p_id q)) as [s2|] eqn:It; [|discriminate]. apply iter_same in It. injection A as A _ _. pose proof (sm_last _ _ It) as L3. rewrite A in L3. cbn [last set_plugins] in *. lia. }
    split; [exact (proj1 (proj2 (proj2 (C41_new_id _ _ _ _ _ _ _ _ _ Rn E N))))|].
    cbn [step] in E. destruct (Load s file li) as [[s1 [i al']]|] eqn:P; [|discriminate]. injection E as <- <- _.
    unfold Load in P. rewrite Sc in P. destruct (_Load (set_plugins l s) file li) as [[s2 a]|] eqn:L; [|discriminate]. apply _Load_quiet in L. destruct (getp s2 a) as [p|]; [|discriminate].
    destruct (iter_plevent s2 OnLoad (p_id p)) as [s3|] eqn:It; [|discriminate]. injection P as <- <- _. apply told_announced. eapply told_intro; [|exact It]. eapply quiet_l; [|exact L]. reflexivity.
Qed.
Print Assumptions C45_load.
Theorem C45_nothing_else : forall s o s' r, step s o = Some (s', r) ->
  match o with OLoad _ _ _ | OUnload _ _ _ | OPause _ _ | OUnpause _ _ => True | _ => not_announced s s' end.
Proof. intros s o s' r E. apply step_quiet in E. destruct o; auto; apply quiet_not; exact E. Qed.
Print Assumptions C45_nothing_else.

(** So two ways of removing and one way of adding a plugin are not announced ... *)
Definition listening : list op := [OLoad (f_ "w.so") 0 (lib_ 9 [AListen 1] true); OLoad (f_ "a.so") 0 (lib_ 10 [] false)].
Theorem C45_retry_refuted : exists s rs s', run init listening = Some (s, rs) /\ listeners_of_others s 2 <> [] /\
  step s (ORetry 2 (lib_ 11 [] true) ([], true)) = Some (s', RBool true) /\ (forall p, In p (listed s') -> p_id p = 2%Z -> is_loaded p) /\ ~ announced s s' OnLoad 2.
Proof.
  eexists _, _, _. split; [vm_compute; reflexivity|]. split; [vm_compute; discriminate|]. split; [vm_compute; reflexivity|]. split.
  - intros p [<-|[<-|[]]]; [discriminate|]. left. reflexivity.
  - intros (pre & E & N). match type of E with context [map ?f ?l] => assert (X : map f l = [CNote (0, 1) OnLoad 2]) by (vm_compute; reflexivity); rewrite X in E end.
    rewrite app_assoc in E. apply (f_equal (fun l => List.last l (CAllLoaded 0))) in E. rewrite last_last in E. vm_compute in E. discriminate.
Qed.
Print Assumptions C45_retry_refuted.
(** ... and a load that failed is announced like one that succeeded. *)
Theorem C45_failed_load_announced_refuted : exists s rs, run init listening = Some (s, rs) /\
  (forall p, In p (listed s) -> p_id p = 2%Z -> p_status p = Some Refused) /\ In (CNote (0, 1) OnLoad 2) (log s).
Proof.
  eexists _, _. split; [vm_compute; reflexivity|]. split; [intros p [<-|[<-|[]]]; [discriminate|reflexivity]|]. vm_compute. tauto.
Qed.
Print Assumptions C45_failed_load_announced_refuted.
Example C45_example : exists s rs s',
  run init [OLoad (f_ "w.so") 0 (lib_ 9 [AListen 1; AListen 2] true); OLoad (f_ "a.so") 0 (lib_ 10 [AListen 1] true)] = Some (s, rs) /\
  step s (OPause 2 ([], true)) = Some (s', RBool true) /\
  listeners_of_others s' 2 = [(0, 1); (0, 2)] /\ log s' = log s ++ [CPause 1 true; CNote (0, 1) OnPause 2; CNote (0, 2) OnPause 2].
Proof. eexists _, _, _. split; [vm_compute; reflexivity|]. split; [vm_compute; reflexivity|]. split; vm_compute; reflexivity. Qed.

(** ** C47.  UnloadAll comes to an end after as many rounds as there are plugins,
    with an empty list and the answer true, whatever the plugins do (unless the
    behaviour is undefined; see C42 for when it is not). *)
Theorem C47_unload_all : forall s cs fuel r, reachable s -> length (plugins s) <= fuel -> UnloadAll fuel s cs = Some r ->
  exists s', r = Some (s', true) /\ plugins s' = [].
Proof. intros s cs fuel r R. apply UnloadAll_total. exact (proj1 (reachable_Good _ R)). Qed.
Print Assumptions C47_unload_all.
Example C47_example : exists s rs s', run init [OLoad (f_ "a.so") 0 (lib_ 10 [] true); OLoad (f_ "b.so") 0 (lib_ 11 [] false); OLoad (f_ "c.so") 0 (lib_ 12 [] true)] = Some (s, rs) /\
  length (plugins s) = 3 /\ UnloadAll 3 s (fun _ => ([], false)) = Some (Some (s', true)) /\ libs s' = [].
Proof. eexists _, _, _. split; [vm_compute; reflexivity|]. split; [reflexivity|]. split; vm_compute; reflexivity. Qed.

(** ** C48.  The built-in names are answered without asking anybody; for any other
    name the listeners are asked in the order of the lists and the first answer
    counts. *)
Theorem C48_builtin : forall ask amd64 s,
  MetaFactory ask amd64 s (f_ "ISourceHook") = Some (Some 1, META_IFACE_OK, 0%Z) /\
  MetaFactory ask amd64 s (f_ "IPluginManager") = Some (Some 2, META_IFACE_OK, 0%Z) /\
  MetaFactory ask false s (f_ "IHookManagerAutoGen") = Some (Some 3, META_IFACE_OK, 0%Z).
Proof. intros ask amd64 s. destruct amd64; repeat split. Qed.
Print Assumptions C48_builtin.

Lemma ask_events_spec ask id iface : forall ls,
  match ask_events ask id ls iface with
  | Some (v, r, i) => i = id /\ exists pre l post, ls = pre ++ l :: post /\ ask l iface = (Some v, r) /\ (forall m, In m pre -> fst (ask m iface) = None)
  | None => forall m, In m ls -> fst (ask m iface) = None
  end.
Proof.
  induction ls as [|l ls IH]; cbn [ask_events]; [intros m []|]. destruct (ask l iface) as [[v|] r] eqn:A.
  - split; [reflexivity|]. exists [], l, ls. split; [reflexivity|]. split; [exact A|]. intros m [].
  - destruct (ask_events ask id ls iface) as [[[v' r'] i]|].
    + destruct IH as (-> & pre & m & post & -> & B & N). split; [reflexivity|]. exists (l :: pre), m, post. split; [reflexivity|]. split; [exact B|]. intros k [<-|J]; [rewrite A; reflexivity|exact (N k J)].
    + intros k [<-|J]; [rewrite A; reflexivity|exact (IH k J)].
Qed.
Definition first_of ask (iface : str) (ls : list (Z * listener)) (x : option (nat * Z * Z)) : Prop :=
  match x with
  | Some (v, r, id) => exists pre l post, ls = pre ++ (id, l) :: post /\ ask l iface = (Some v, r) /\ (forall m, In m pre -> fst (ask (snd m) iface) = None)
  | None => forall m, In m ls -> fst (ask (snd m) iface) = None
  end.
Lemma ask_plugins_spec ask s iface : forall l, (forall a, In a l -> exists p, getp s a = Some p) ->
  exists x, ask_plugins ask s l iface = Some x /\
    first_of ask iface (flat_map (fun p => map (fun l => (p_id p, l)) (p_events p)) (flat_map (fun a => match getp s a with Some p => [p] | None => [] end) l)) x.
Proof.
  induction l as [|a l IH]; intros T; cbn [ask_plugins]; [exists None; split; [reflexivity|intros m []]|]. destruct (T a (or_introl eq_refl)) as (p & G). rewrite G. cbn [flat_map]. rewrite G. cbn [app flat_map].
  destruct IH as (x & E & F); [intros b I; apply T; right; exact I|]. pose proof (ask_events_spec ask (p_id p) iface (p_events p)) as A. destruct (ask_events ask (p_id p) (p_events p) iface) as [[[v r] i]|].
  - exists (Some (v, r, i)). split; [reflexivity|]. destruct A as (-> & pre & l1 & post & Ep & B & N). exists (map (fun l => (p_id p, l)) pre), l1. eexists. split; [rewrite Ep, map_app; cbn [map]; rewrite <- app_assoc; cbn [app]; reflexivity|].
    split; [exact B|]. intros m J. apply in_map_iff in J. destruct J as (k & <- & J). exact (N k J).
  - exists x. split; [exact E|]. assert (A' : forall m, In m (map (fun l => (p_id p, l)) (p_events p)) -> fst (ask (snd m) iface) = None) by (intros m J; apply in_map_iff in J; destruct J as (k & <- & J); exact (A k J)).
    destruct x as [[[v r] i]|]; cbn [first_of] in F |- *.
    + destruct F as (pre & l1 & post & Ef & B & N). exists (map (fun l => (p_id p, l)) (p_events p) ++ pre), l1, post. split; [rewrite Ef, app_assoc; reflexivity|]. split; [exact B|].
      intros m J. apply in_app_or in J. destruct J as [J|J]; [exact (A' m J)|exact (N m J)].
    + intros m J. apply in_app_or in J. destruct J as [J|J]; [exact (A' m J)|exact (F m J)].
Qed.
Theorem C48_first_answer : forall ask (amd64 : bool) s iface, reachable s ->
  iface <> f_ "ISourceHook" -> iface <> f_ "IPluginManager" -> (amd64 = false -> iface <> f_ "IHookManagerAutoGen") ->
  exists v ret id, MetaFactory ask amd64 s iface = Some (v, ret, id) /\
    ((exists x pre l post, v = Some x /\ all_listeners s = pre ++ (id, l) :: post /\ ask l iface = (Some x, ret) /\
        (forall m, In m pre -> fst (ask (snd m) iface) = None)) \/
     (v = None /\ ret = META_IFACE_FAILED /\ id = 0%Z /\ (forall m, In m (all_listeners s) -> fst (ask (snd m) iface) = None))).
Proof.
  intros ask amd64 s iface R N1 N2 N3. unfold MetaFactory.
  assert (index_of iface (builtin amd64) 1 = None) as ->.
  { assert (NE : forall x, iface <> f_ x -> str_eqb iface (list_ascii_of_string x) = false) by (intros x D; destruct (str_eqb iface (list_ascii_of_string x)) eqn:E; [|reflexivity]; apply str_eqb_true in E; exfalso; apply D; exact E).
    destruct amd64; cbn [builtin app map index_of]; rewrite !NE; auto. }
  destruct (ask_plugins_spec ask s iface (plugins s)) as (x & E & F); [apply (proj1 (reachable_Good _ R))|]. rewrite E. fold (listed s) in F. fold (all_listeners s) in F.
  destruct x as [[[v r] id]|].
  - exists (Some v), r, id. split; [reflexivity|]. left. destruct F as (pre & l & post & F). exists v, pre, l, post. tauto.
  - exists None, META_IFACE_FAILED, 0%Z. split; [reflexivity|]. right. repeat split. exact F.
Qed.
Print Assumptions C48_first_answer.
(** The factories handed to the game: a plugin's answer first, the original otherwise. *)
Theorem C48_factories : forall ask orig s iface, reachable s ->
  exists v ret, SynFactory ask orig s iface = Some (v, ret) /\
    ((exists x pre id l post, v = Some x /\ all_listeners s = pre ++ (id, l) :: post /\ ask l iface = (Some x, ret) /\
        (forall m, In m pre -> fst (ask (snd m) iface) = None)) \/
     ((v, ret) = orig iface /\ (forall m, In m (all_listeners s) -> fst (ask (snd m) iface) = None))).
Proof.
  intros ask orig s iface R. unfold SynFactory. destruct (ask_plugins_spec ask s iface (plugins s)) as (x & E & F); [apply (proj1 (reachable_Good _ R))|]. rewrite E. fold (listed s) in F. fold (all_listeners s) in F.
  destruct x as [[[v r] id]|].
  - exists (Some v), r. split; [reflexivity|]. left. destruct F as (pre & l & post & F). exists v, pre, id, l, post. tauto.
  - destruct (orig iface) as [v r] eqn:O. exists v, r. split; [reflexivity|]. right. split; [reflexivity|exact F].
Qed.
Print Assumptions C48_factories.
Example C48_example : exists s rs,
  run init [OLoad (f_ "w.so") 0 (lib_ 9 [AListen 1; AListen 2] true); OLoad (f_ "a.so") 0 (lib_ 10 [AListen 1] true)] = Some (s, rs) /\
  all_listeners s = [(1%Z, (0, 1)); (1%Z, (0, 2)); (2%Z, (1, 1))] /\
  MetaFactory (fun l _ => if snd l =? 1 then (None, 1%Z) else (Some 77, 0%Z)) true s (f_ "IHookManagerAutoGen") = Some (Some 77, 0%Z, 1%Z).
Proof. eexists _, _. split; [vm_compute; reflexivity|]. split; vm_compute; reflexivity. Qed.
