(** Memory safety of the plugin manager: the operations. *)
From Coq Require Import List ZArith Bool Arith Ascii Lia.
From Verif Require Import Base ListModel StrModel StrSpec StrProofs PlugModel PlugSpec PlugProofs PlugRun PlugSafe.
Import ListNotations.
Local Open Scope list_scope.
Local Open Scope nat_scope.
Notation length := List.length.

(** ** Changing the list, an object, a status *)
Lemma sub_ok X s l : SafeX X s -> (forall b, In b l -> In b (plugins s)) ->
  (forall b p, In b (plugins s) -> ~ In b l -> getp s b = Some p -> is_loaded p -> X = Some b) -> SafeX X (set_plugins l s).
Proof.
  intros S J D. destruct S as [sf_open0 sf_uniq0 sf_ufn0 sf_api0 sf_run0 sf_apis0 sf_ev0 sf_held0 sf_pend0 sf_pnd0 sf_x0 sf_own0 sf_life0]. split; auto.
  - intros a p Ia. apply sf_run0. apply J. exact Ia.
  - intros a b p q x Ia Ib. apply sf_apis0; apply J; assumption.
  - intros a p G L. destruct (sf_held0 a p G L) as [C|[[C1 C2]|C]]; auto. cbn [plugins set_plugins]. destruct (in_dec Nat.eq_dec a l) as [I|N]; [auto|]. left. exact (D a p C1 N G C2).
  - intros a Ia. destruct (sf_pend0 a Ia) as (p & G & L & E & N). exists p. split; [exact G|]. split; [exact L|]. split; [exact E|]. intros [C1 C2]. apply N. split; [apply J; exact C1|exact C2].
  - intros a. destruct (sf_life0 a) as (q & T & L1 & L2 & L3 & L4 & L5). exists q. split; [exact T|]. split; [exact L1|]. split; [intros p NX Ia; apply (L2 p NX (J a Ia))|]. split; [intros p NX Ia; apply (L3 p NX (J a Ia))|]. auto.
Qed.
Lemma free_ok X s a p : SafeX X s -> getp s a = Some p -> p_lib p = None -> ~ In a (plugins s) -> ~ In a (pa s) -> SafeX X (setp s a None).
Proof.
  intros S G L NI NP. pose proof (getp_lt _ _ _ G) as LT.
  assert (B : forall b r, getp (setp s a None) b = Some r -> b <> a /\ getp s b = Some r).
  { intros b r. rewrite getp_setp by exact LT. destruct (Nat.eqb_spec b a) as [->|N]; [discriminate|auto]. }
  assert (F : forall b, b <> a -> getp (setp s a None) b = getp s b) by (intros b N; apply getp_setp_other; congruence).
  destruct S as [sf_open0 sf_uniq0 sf_ufn0 sf_api0 sf_run0 sf_apis0 sf_ev0 sf_held0 sf_pend0 sf_pnd0 sf_x0 sf_own0 sf_life0]. split; cbn [plugins pend libs nlib allloaded setp set_heap].
  - intros b r h R. destruct (B b r R). eauto.
  - intros b d r t h R T. destruct (B b r R), (B d t T). eauto.
  - intros b r h h' R. destruct (B b r R). eauto.
  - intros b r R. destruct (B b r R). eauto.
  - intros b r Ib R. destruct (B b r R). eauto.
  - intros b d r t x Ib Id R T. destruct (B b r R), (B d t T). eauto.
  - intros b r e R. destruct (B b r R). eauto.
  - intros b r R. destruct (B b r R). eauto.
  - intros b Ib. destruct (sf_pend0 b Ib) as (r & R & Q). exists r. rewrite F by (intros ->; contradiction). auto.
  - assumption.
  - assumption.
  - intros h Ih. destruct (sf_own0 h Ih) as (b & r & R & E). exists b, r. rewrite F; [auto|]. intros ->. congruence.
  - intros b. destruct (sf_life0 b) as (q & T & L1 & L2 & L3 & L4 & L5). exists q. split; [exact T|]. cbn [heap setp set_heap]. rewrite setnth_length. split; [exact L1|].
    split; [intros r NX Ib R; destruct (B b r R); eauto|]. split; [intros r NX Ib R; destruct (B b r R); eauto|]. auto.
Qed.
Lemma status_ok s a p x : SafeX (Some a) s -> getp s a = Some p -> p_api p <> None -> SafeX (Some a) (setp s a (Some (with_status x p))).
Proof.
  intros S G A. pose proof (getp_lt _ _ _ G) as LT. set (q := with_status x p).
  assert (B : forall b r, getp (setp s a (Some q)) b = Some r -> (b = a /\ r = q) \/ (b <> a /\ getp s b = Some r)).
  { intros b r. rewrite getp_setp by exact LT. destruct (Nat.eqb_spec b a) as [->|N]; [intros E; injection E as <-; auto|auto]. }
  assert (B1 : forall b r, getp (setp s a (Some q)) b = Some r -> exists r0, getp s b = Some r0 /\ p_lib r = p_lib r0 /\ p_ufn r = p_ufn r0 /\ p_api r = p_api r0 /\ p_events r = p_events r0).
  { intros b r R. destruct (B b r R) as [[-> ->]|[N R0]]; [exists p; auto|exists r; auto]. }
  pose proof (sf_x _ _ S a eq_refl) as NP.
  destruct S as [sf_open0 sf_uniq0 sf_ufn0 sf_api0 sf_run0 sf_apis0 sf_ev0 sf_held0 sf_pend0 sf_pnd0 sf_x0 sf_own0 sf_life0]. split; cbn [plugins pend libs nlib allloaded setp set_heap].
  - intros b r h R. destruct (B1 b r R) as (r0 & R0 & -> & _). eauto.
  - intros b d r t h R T. destruct (B1 b r R) as (r0 & R0 & -> & _). destruct (B1 d t T) as (t0 & T0 & -> & _). eauto.
  - intros b r h h' R. destruct (B1 b r R) as (r0 & R0 & -> & -> & _). eauto.
  - intros b r R. destruct (B1 b r R) as (r0 & R0 & -> & _ & -> & _). eauto.
  - intros b r Ib R L. destruct (B b r R) as [[-> ->]|[N R0]]; [exact A|]. eauto.
  - intros b d r t y Ib Id R T. destruct (B1 b r R) as (r0 & R0 & _ & _ & -> & _). destruct (B1 d t T) as (t0 & T0 & _ & _ & -> & _). eauto.
  - intros b r e R. destruct (B1 b r R) as (r0 & R0 & -> & _ & _ & ->). eauto.
  - intros b r R L. destruct (B b r R) as [[-> ->]|[N R0]]; [left; reflexivity|]. eauto.
  - intros b Ib. destruct (sf_pend0 b Ib) as (r & R & Q). exists r. rewrite getp_setp_other; [auto|]. intros ->. contradiction.
  - assumption.
  - assumption.
  - intros h Ih. destruct (sf_own0 h Ih) as (b & r & R & E). destruct (Nat.eq_dec b a) as [->|N]; [exists a, q; rewrite getp_setp_same by exact LT; split; [reflexivity|]; assert (r = p) by congruence; subst; exact E|]. exists b, r. rewrite getp_setp_other by congruence. auto.
  - intros b. destruct (sf_life0 b) as (q0 & T & L1 & L2 & L3 & L4 & L5). exists q0. split; [exact T|]. cbn [heap setp set_heap]. rewrite setnth_length. split; [exact L1|].
    split; [intros r NX Ib R; destruct (B b r R) as [[-> ->]|[N R0]]; [congruence|eauto]|]. split; [intros r NX Ib R; destruct (B b r R) as [[-> ->]|[N R0]]; [congruence|eauto]|]. auto.
Qed.

(** ** Loading *)
Lemma tr_new X s a : SafeX X s -> length (heap s) <= a -> tr a s = Some PNew.
Proof. intros S L. destruct (sf_life _ _ S a) as (q & T & L1 & _). rewrite T, (L1 L). reflexivity. Qed.
Lemma added_ok s file : Inv s -> SafeX None s -> SafeX (Some (length (heap s))) (added s file).
Proof.
  intros I S. set (a := length (heap s)).
  assert (B : forall b r, getp (added s file) b = Some r -> (b = a /\ r = newp s file) \/ (b <> a /\ getp s b = Some r)).
  { intros b r. rewrite added_get. fold a. destruct (Nat.eqb_spec b a) as [->|N]; [intros E; injection E as <-; auto|auto]. }
  assert (F : forall b r, getp s b = Some r -> getp (added s file) b = Some r).
  { intros b r R. rewrite added_get. pose proof (getp_lt _ _ _ R). destruct (Nat.eqb_spec b (length (heap s))); [lia|exact R]. }
  assert (IB : forall b, In b (plugins (added s file)) -> b <> a -> In b (plugins s)).
  { intros b Ib N. cbn [plugins added set_last set_plugins set_heap] in Ib. apply in_app_or in Ib. destruct Ib as [Ib|[Ib|[]]]; [exact Ib|]. exfalso. apply N. symmetry. exact Ib. }
  assert (JB : forall b, In b (plugins s) -> In b (plugins (added s file))) by (intros b Ib; cbn; apply in_or_app; auto).
  assert (NP : ~ In a (pa s)).
  { intros C. apply in_map_iff in C. destruct C as (u & E & Iu). destruct (iv_pend _ I u Iu). unfold a in E. lia. }
  pose proof S as S0. destruct S as [sf_open0 sf_uniq0 sf_ufn0 sf_api0 sf_run0 sf_apis0 sf_ev0 sf_held0 sf_pend0 sf_pnd0 sf_x0 sf_own0 sf_life0]. split; change (pa (added s file)) with (pa s); change (libs (added s file)) with (libs s); change (nlib (added s file)) with (nlib s).
  - intros b r h R L. destruct (B b r R) as [[-> ->]|[N R0]]; [discriminate|eauto].
  - intros b d r t h R T L1 L2. destruct (B b r R) as [[-> ->]|[N R0]]; [discriminate|]. destruct (B d t T) as [[-> ->]|[N' T0]]; [discriminate|eauto].
  - intros b r h h' R. destruct (B b r R) as [[-> ->]|[N R0]]; [discriminate|eauto].
  - intros b r R A. destruct (B b r R) as [[-> ->]|[N R0]]; [exfalso; apply A; reflexivity|eauto].
  - intros b r Ib R L. destruct (B b r R) as [[-> ->]|[N R0]]; [destruct L; discriminate|]. exact (sf_run0 b r (IB b Ib N) R0 L).
  - intros b d r t x Ib Id R T A1 A2. destruct (B b r R) as [[-> ->]|[N R0]]; [discriminate|]. destruct (B d t T) as [[-> ->]|[N' T0]]; [discriminate|]. exact (sf_apis0 b d r t x (IB b Ib N) (IB d Id N') R0 T0 A1 A2).
  - intros b r e R E. destruct (B b r R) as [[-> ->]|[N R0]]; [destruct E|eauto].
  - intros b r R L. destruct (B b r R) as [[-> ->]|[N R0]]; [left; reflexivity|]. destruct (sf_held0 b r R0 L) as [C|[[C1 C2]|C]]; [discriminate|right; left; auto|auto].
  - intros b Ib. destruct (sf_pend0 b Ib) as (r & R & R1 & R2 & R3). exists r. split; [apply F; exact R|]. split; [exact R1|]. split; [exact R2|]. intros [C1 C2]. apply R3. split; [|exact C2]. apply IB; [exact C1|]. intros ->. contradiction.
  - assumption.
  - intros b E. injection E as <-. exact NP.
  - intros h Ih. destruct (sf_own0 h Ih) as (b & r & R & E). exists b, r. split; [apply F; exact R|exact E].
  - intros b. destruct (sf_life0 b) as (q & T & L1 & L2 & L3 & L4 & L5). exists q. split; [exact T|]. cbn [heap added set_last set_plugins set_heap allloaded]. rewrite app_length. cbn [List.length]. split; [intros; apply L1; lia|].
    split; [intros r NX Ib R; destruct (B b r R) as [[-> ->]|[N R0]]; [congruence|]; apply L2; auto; discriminate|]. split; [intros r NX Ib R; destruct (B b r R) as [[-> ->]|[N R0]]; [congruence|]; apply L3; auto; discriminate|]. auto.
Qed.
Lemma open_ok s a p0 q : SafeX (Some a) s -> getp s a = Some p0 -> p_lib p0 = None -> a < length (heap s) ->
  p_lib q = Some (nlib s) -> (p_ufn q = None \/ p_ufn q = Some (nlib s)) -> p_events q = [] -> ~ is_loaded q ->
  (forall x b r, p_api q = Some x -> In b (plugins s) -> b <> a -> getp s b = Some r -> p_api r <> Some x) ->
  SafeX (Some a) (setp (set_nlib (S (nlib s)) (set_libs (libs s ++ [nlib s]) s)) a (Some q)).
Proof.
  set (s1 := set_nlib (S (nlib s)) (set_libs (libs s ++ [nlib s]) s)). intros SF G L0 LT LQ UQ EQ NL FR.
  assert (B : forall b r, getp (setp s1 a (Some q)) b = Some r -> (b = a /\ r = q) \/ (b <> a /\ getp s b = Some r)).
  { intros b r. rewrite getp_setp by exact LT. destruct (Nat.eqb_spec b a) as [->|N]; [intros E; injection E as <-; auto|auto]. }
  assert (F : forall b, b <> a -> getp (setp s1 a (Some q)) b = getp s b) by (intros b N; rewrite getp_setp_other by congruence; reflexivity).
  pose proof (sf_x _ _ SF a eq_refl) as NP. destruct SF as [sf_open0 sf_uniq0 sf_ufn0 sf_api0 sf_run0 sf_apis0 sf_ev0 sf_held0 sf_pend0 sf_pnd0 sf_x0 sf_own0 sf_life0]. split; change (pa (setp s1 a (Some q))) with (pa s); change (plugins (setp s1 a (Some q))) with (plugins s);
    change (libs (setp s1 a (Some q))) with (libs s ++ [nlib s]); change (nlib (setp s1 a (Some q))) with (S (nlib s)).
  - intros b r h R L. destruct (B b r R) as [[-> ->]|[N R0]].
    + assert (h = nlib s) by congruence. subst h. split; [apply in_or_app; right; left; reflexivity|lia].
    + destruct (sf_open0 b r h R0 L). split; [apply in_or_app; left; assumption|lia].
  - intros b d r t h R T L1 L2. destruct (B b r R) as [[-> ->]|[N R0]], (B d t T) as [[-> ->]|[N' T0]]; auto.
    + exfalso. destruct (sf_open0 d t h T0 L2). assert (h = nlib s) by congruence. lia.
    + exfalso. destruct (sf_open0 b r h R0 L1). assert (h = nlib s) by congruence. lia.
    + eauto.
  - intros b r h h' R U L. destruct (B b r R) as [[-> ->]|[N R0]]; [|eauto]. destruct UQ; congruence.
  - intros b r R A. destruct (B b r R) as [[-> ->]|[N R0]]; [congruence|eauto].
  - intros b r Ib R L. destruct (B b r R) as [[-> ->]|[N R0]]; [contradiction|eauto].
  - intros b d r t x Ib Id R T A1 A2. destruct (B b r R) as [[-> ->]|[N R0]], (B d t T) as [[-> ->]|[N' T0]]; auto.
    + exfalso. exact (FR x d t A1 Id N' T0 A2).
    + exfalso. exact (FR x b r A2 Ib N R0 A1).
    + eauto.
  - intros b r e R E. destruct (B b r R) as [[-> ->]|[N R0]]; [rewrite EQ in E; destruct E|eauto].
  - intros b r R L. destruct (B b r R) as [[-> ->]|[N R0]]; [left; reflexivity|eauto].
  - intros b Ib. destruct (sf_pend0 b Ib) as (r & R & Q). exists r. rewrite F by (intros ->; contradiction). auto.
  - assumption.
  - assumption.
  - intros h Ih. apply in_app_or in Ih. destruct Ih as [Ih|[<-|[]]].
    + destruct (sf_own0 h Ih) as (b & r & R & E). exists b, r. rewrite F; [auto|]. intros ->. congruence.
    + exists a, q. split; [apply getp_setp_same; exact LT|exact LQ].
  - intros b. destruct (sf_life0 b) as (q0 & T & L1 & L2 & L3 & L4 & L5). exists q0. split; [exact T|]. cbn [heap setp set_heap s1 set_nlib set_libs]. rewrite setnth_length. split; [exact L1|].
    split; [intros r NX Ib R; destruct (B b r R) as [[-> ->]|[N R0]]; [congruence|eauto]|]. split; [intros r NX Ib R; destruct (B b r R) as [[-> ->]|[N R0]]; [congruence|eauto]|]. auto.
Qed.

Lemma load_lib_ok s a li p0 : Inv s -> SafeX (Some a) s -> In a (plugins s) -> getp s a = Some p0 -> p_lib p0 = None -> p_events p0 = [] -> p_status p0 = None -> tr a s = Some PNew ->
  (forall b p, In b (plugins s) -> b <> a -> getp s b = Some p -> p_status p <> None) ->
  (forall x b r, li_api1 li = Some x \/ li_api2 li = Some x -> In b (plugins s) -> b <> a -> getp s b = Some r -> p_api r <> Some x) ->
  no_unreg (fst (li_load li)) ->
  exists s' p q, load_lib s a li = Some s' /\ SafeX (Some a) s' /\ getp s' a = Some p /\ tr a s' = Some q /\ p_lib p <> None /\
    ((~ is_loaded p /\ dying q) \/ (p_status p = Some Running /\ exists b, q = PRun b)).
Proof.
  intros I SF Ia G L0 E0 S0 T0 ST FR NU. pose proof (getp_lt _ _ _ G) as LT. unfold load_lib.
  set (s1 := set_nlib (S (nlib s)) (set_libs (libs s ++ [nlib s]) s)).
  set (api1 := if li_fnload li then li_api1 li else None).
  set (ufn := if li_fnload li && li_ufn li then Some (nlib s) else None).
  set (api := match api1 with Some _ => api1 | None => if li_pfn li then li_api2 li else None end).
  change (getp s1 a) with (getp s a). rewrite G.
  set (p1 := with_lib api (li_ver li) (Some (nlib s)) ufn p0).
  assert (AP : forall x, api = Some x -> li_api1 li = Some x \/ li_api2 li = Some x).
  { intros x. unfold api, api1. destruct (li_fnload li); [destruct (li_api1 li); [auto|]|]; (destruct (li_pfn li); [auto|discriminate]). }
  assert (UF : ufn = None \/ ufn = Some (nlib s)) by (unfold ufn; destruct (li_fnload li && li_ufn li); auto).
  assert (FA : forall x b r, api = Some x -> In b (plugins s) -> b <> a -> getp s b = Some r -> p_api r <> Some x) by (intros x b r E; apply FR; apply AP; exact E).
  assert (ERR : exists s' p q, Some (setp s1 a (Some (with_status Error p1))) = Some s' /\ SafeX (Some a) s' /\ getp s' a = Some p /\ tr a s' = Some q /\ p_lib p <> None /\
    ((~ is_loaded p /\ dying q) \/ (p_status p = Some Running /\ exists b, q = PRun b))).
  { eexists _, _, PNew. split; [reflexivity|]. split; [apply (open_ok s a p0); auto; intros [C|C]; discriminate|]. split; [apply getp_setp_same; exact LT|]. split; [exact T0|]. split; [discriminate|]. left. split; [intros [C|C]; discriminate|left; reflexivity]. }
  destruct api as [ap|] eqn:EA; [|exact ERR].
  destruct ((li_ver li <? PLAPI_MIN_VERSION)%Z || (METAMOD_PLAPI_VERSION <? li_ver li)%Z); [exact ERR|]. clear ERR.
  set (p2 := with_told (Some (p_id p1)) p1). set (s2 := setp s1 a (Some p2)).
  assert (S2 : SafeX (Some a) s2).
  { apply (open_ok s a p0); auto. intros [C|C]; cbn in C; congruence. }
  assert (G2 : getp s2 a = Some p2) by (apply getp_setp_same; exact LT).
  assert (F2 : frame1 a s s2).
  { eapply frame1_trans; [|apply (frame1_setp a s1 p0); [exact G|reflexivity|reflexivity]]. split; try reflexivity. intros b p Jb Gb. exists p. auto. auto. }
  destruct (call_ok s2 a p2 (CLoad a (p_id p1) (allloaded s2) (snd (li_load li))) (fst (li_load li)) PNew (if snd (li_load li) then PRun false else PRefused)) as (s3 & E3 & S3 & T3 & SM3); auto.
  { exact (Inv_frame1 _ _ _ F2 I). }
  { discriminate. }
  { intros _ [C|C]; destruct (snd (li_load li)); discriminate. }
  rewrite E3. destruct (same_getp _ _ _ _ SM3 G2) as (p3 & G3 & C3). rewrite G3.
  assert (A3 : p_api p3 <> None) by (rewrite (core_api _ _ C3); discriminate).
  assert (L3 : p_lib p3 <> None) by (rewrite (core_lib _ _ C3); discriminate).
  destruct (snd (li_load li)).
  - set (s4 := setp s3 a (Some (with_status Running p3))). assert (S4 : SafeX (Some a) s4) by (apply status_ok; assumption).
    assert (G4 : getp s4 a = Some (with_status Running p3)) by (apply getp_setp_same; exact (getp_lt _ _ _ G3)).
    destruct (allloaded s4) eqn:AL.
    + assert (F4 : frame1 a s s4) by (eapply frame1_trans; [exact F2|]; eapply frame1_trans; [apply frame_frame1, same_frame, SM3|]; apply (frame1_setp a s3 p3); auto).
      pose proof (Inv_frame1 _ _ _ F4 I) as I4.
      destruct (call_ok s4 a (with_status Running p3) (CAllLoaded a) (li_all li) (PRun false) (PRun true)) as (s5 & E5 & S5 & T5 & SM5); auto.
      * rewrite (f1_plugins _ _ _ F4). exact Ia.
      * congruence.
      * left. intros b p Ib Gb. rewrite (f1_plugins _ _ _ F4) in Ib. destruct (Nat.eq_dec b a) as [->|N].
        -- assert (p = with_status Running p3) by congruence. subst p. discriminate.
        -- destruct (iv_get _ I b Ib) as (r & R). destruct (f1_get _ _ _ F4 b r Ib R) as (r' & R' & _ & _ & X). assert (r' = p) by congruence. subst r'. rewrite (X N). exact (ST b r Ib N R).
      * destruct (same_getp _ _ _ _ SM5 G4) as (p5 & G5 & C5). exists s5, p5, (PRun true). split; [exact E5|]. split; [exact S5|]. split; [exact G5|]. split; [exact T5|]. split; [rewrite (core_lib _ _ C5); exact L3|].
        right. split; [rewrite (core_status _ _ C5); reflexivity|eauto].
    + exists s4, (with_status Running p3), (PRun false). split; [reflexivity|]. split; [exact S4|]. split; [exact G4|]. split; [exact T3|]. split; [exact L3|]. right. split; [reflexivity|eauto].
  - set (s4 := setp s3 a (Some (with_status Refused p3))). assert (S4 : SafeX (Some a) s4) by (apply status_ok; assumption).
    exists s4, (with_status Refused p3), PRefused. split; [reflexivity|]. split; [exact S4|]. split; [apply getp_setp_same; exact (getp_lt _ _ _ G3)|]. split; [exact T3|]. split; [exact L3|]. left. split; [intros [C|C]; discriminate|right; left; reflexivity].
Qed.

Lemma _Load_ok s file li : Inv s -> St s -> SafeX None s -> no_unreg (fst (li_load li)) ->
  (forall x b r, li_api1 li = Some x \/ li_api2 li = Some x -> In b (plugins s) -> getp s b = Some r -> p_api r <> Some x) ->
  exists s' a, _Load s file li = Some (s', a) /\ SafeX None s' /\ (depth s = 0 -> pa s' = pa s) /\ (forall b, In b (pa s') -> In b (pa s) \/ b = a).
Proof.
  intros I ST S NU FR. unfold _Load. fold (newp s file). fold (added s file). set (a := length (heap s)). set (s1 := added s file).
  pose proof (added_Inv s file I) as I1. fold s1 in I1. pose proof (added_ok s file I S) as S1. fold s1 a in S1.
  assert (G1 : getp s1 a = Some (newp s file)) by (unfold s1, a; rewrite added_get, Nat.eqb_refl; reflexivity).
  assert (L1 : In a (plugins s1)) by (cbn; apply in_elt).
  assert (T1 : tr a s1 = Some PNew) by (apply (tr_new None s); [exact S|unfold a; lia]).
  assert (OTH : forall b p, In b (plugins s1) -> b <> a -> getp s1 b = Some p -> In b (plugins s) /\ getp s b = Some p).
  { intros b p Ib N Gb. cbn [plugins s1 added set_last set_plugins set_heap] in Ib. apply in_app_or in Ib. destruct Ib as [Ib|[Ib|[]]]; [|exfalso; apply N; symmetry; exact Ib]. split; [exact Ib|]. unfold s1 in Gb. rewrite added_get in Gb. apply Nat.eqb_neq in N. unfold a in N. rewrite N in Gb. exact Gb. }
  (* the state after the attempt *)
  set (e := if ends_with file so_ext && li_exists li then _ else _).
  assert (X : exists s2 p q, e = Some s2 /\ frame1 a s1 s2 /\ SafeX (Some a) s2 /\ getp s2 a = Some p /\ tr a s2 = Some q /\ p_status p <> None /\
     ((p_lib p = None /\ ~ is_loaded p) \/ (p_lib p <> None /\ ~ is_loaded p /\ dying q) \/ (p_lib p <> None /\ p_status p = Some Running /\ exists b, q = PRun b))).
  { unfold e. assert (NOLIB : forall x, x <> Running -> x <> Paused -> exists s2 p q, Some (setp s1 a (Some (with_status x (newp s file)))) = Some s2 /\ frame1 a s1 s2 /\ SafeX (Some a) s2 /\ getp s2 a = Some p /\ tr a s2 = Some q /\ p_status p <> None /\
     ((p_lib p = None /\ ~ is_loaded p) \/ (p_lib p <> None /\ ~ is_loaded p /\ dying q) \/ (p_lib p <> None /\ p_status p = Some Running /\ exists b, q = PRun b))).
    { intros x N1 N2. eexists _, _, PNew. split; [reflexivity|]. split; [apply (frame1_setp a s1 (newp s file)); auto|].
      assert (GG : getp (setp s1 a (Some (with_status x (newp s file)))) a = Some (with_status x (newp s file))) by (apply getp_setp_same; exact (getp_lt _ _ _ G1)).
      assert (NLD : ~ is_loaded (with_status x (newp s file))) by (intros [C|C]; cbn in C; congruence).
      split; [|split; [exact GG|split; [exact T1|split; [discriminate|left; split; [reflexivity|exact NLD]]]]].
      pose proof (getp_lt _ _ _ G1) as LT. set (q := with_status x (newp s file)) in *.
      assert (B : forall b r, getp (setp s1 a (Some q)) b = Some r -> (b = a /\ r = q) \/ (b <> a /\ getp s1 b = Some r)).
      { intros b r. rewrite getp_setp by exact LT. destruct (Nat.eqb_spec b a) as [->|N]; [intros E; injection E as <-; auto|auto]. }
      pose proof (sf_x _ _ S1 a eq_refl) as NP. clear -S1 B NLD NP G1 GG. destruct S1 as [sf_open0 sf_uniq0 sf_ufn0 sf_api0 sf_run0 sf_apis0 sf_ev0 sf_held0 sf_pend0 sf_pnd0 sf_x0 sf_own0 sf_life0]. split; change (pa (setp s1 a (Some q))) with (pa s1); change (plugins (setp s1 a (Some q))) with (plugins s1);
        change (libs (setp s1 a (Some q))) with (libs s1); change (nlib (setp s1 a (Some q))) with (nlib s1).
      - intros b r h R L. destruct (B b r R) as [[-> ->]|[N R0]]; [discriminate|eauto].
      - intros b d r t h R T L1 L2. destruct (B b r R) as [[-> ->]|[N R0]]; [discriminate|]. destruct (B d t T) as [[-> ->]|[N' T0]]; [discriminate|eauto].
      - intros b r h h' R. destruct (B b r R) as [[-> ->]|[N R0]]; [discriminate|eauto].
      - intros b r R A. destruct (B b r R) as [[-> ->]|[N R0]]; [exfalso; apply A; reflexivity|eauto].
      - intros b r Ib R L. destruct (B b r R) as [[-> ->]|[N R0]]; [contradiction|eauto].
      - intros b d r t y Ib Id R T A1 A2. destruct (B b r R) as [[-> ->]|[N R0]]; [discriminate|]. destruct (B d t T) as [[-> ->]|[N' T0]]; [discriminate|eauto].
      - intros b r e R E. destruct (B b r R) as [[-> ->]|[N R0]]; [destruct E|eauto].
      - intros b r R L. destruct (B b r R) as [[-> ->]|[N R0]]; [left; reflexivity|eauto].
      - intros b Ib. destruct (sf_pend0 b Ib) as (r & R & Q). exists r. rewrite getp_setp_other; [auto|]. intros <-. contradiction.
      - assumption.
      - assumption.
      - intros h Ih. destruct (sf_own0 h Ih) as (b & r & R & E). exists b, r. rewrite getp_setp_other; [auto|]. intros <-. rewrite G1 in R. injection R as <-. discriminate.
      - intros b. destruct (sf_life0 b) as (q0 & T & L1 & L2 & L3 & L4 & L5). exists q0. split; [exact T|]. cbn [heap setp set_heap]. rewrite setnth_length. split; [exact L1|].
        split; [intros r NX Ib R; destruct (B b r R) as [[-> ->]|[N R0]]; [congruence|eauto]|]. split; [intros r NX Ib R; destruct (B b r R) as [[-> ->]|[N R0]]; [congruence|eauto]|]. auto. }
    destruct (ends_with file so_ext && li_exists li); [destruct (li_dl li)|].
    - destruct (load_lib_ok s1 a li (newp s file)) as (s2 & p & q & E & S2 & G2 & T2 & LB & C); auto.
      + intros b p Ib N Gb. destruct (OTH b p Ib N Gb). eauto.
      + intros x b r Ex Ib N Gb. destruct (OTH b r Ib N Gb). eauto.
      + destruct (load_lib_frame1 s1 a li s2 _ L1 G1 E) as [F (p' & x & G' & Sx)]. assert (p' = p) by congruence. subst p'. exists s2, p, q. split; [exact E|]. split; [exact F|]. split; [exact S2|]. split; [exact G2|]. split; [exact T2|]. split; [congruence|].
        right. destruct C as [[C1 C2]|[C1 C2]]; [left|right]; auto.
    - apply NOLIB; discriminate.
    - apply NOLIB; discriminate. }
  destruct X as (s2 & p & q & E & F & S2 & G2 & T2 & SP & C). rewrite E, G2. destruct (p_status p) as [x|] eqn:Sx; [|congruence].
  pose proof (Inv_frame1 _ _ _ F I1) as I2.
  assert (L2 : In a (plugins s2)) by (rewrite (f1_plugins _ _ _ F); exact L1).
  assert (ST2 : St s2).
  { intros b r Ib R. destruct (Nat.eq_dec b a) as [->|N]; [congruence|]. rewrite (f1_plugins _ _ _ F) in Ib. destruct (iv_get _ I1 b Ib) as (r0 & R0). destruct (f1_get _ _ _ F b r0 Ib R0) as (r' & R' & _ & _ & X). assert (r' = r) by congruence. subst r'. rewrite (X N). destruct (OTH b r0 Ib N R0). eauto. }
  assert (PA2 : pa s2 = pa s).
  { unfold pa. f_equal. clear -E. unfold e in E. destruct (ends_with file so_ext && li_exists li); [destruct (li_dl li)|]; try (injection E as <-; reflexivity).
    unfold load_lib in E. destruct (getp _ a) as [p0|]; [|discriminate]. match type of E with match ?z with _ => _ end = _ => destruct z end; [|injection E as <-; reflexivity].
    match type of E with (if ?z then _ else _) = _ => destruct z end; [injection E as <-; reflexivity|].
    match type of E with context [call_plugin ?x ?y ?z ?w] => destruct (call_plugin x y z w) as [s3|] eqn:K end; [|discriminate]. apply call_plugin_same in K. destruct (getp s3 a) as [p3|]; [|discriminate].
    destruct (snd (li_load li)); [destruct (allloaded _); [apply call_plugin_same in E; rewrite <- (sm_pend _ _ E)|injection E as <-]|injection E as <-]; cbn [pend setp set_heap]; rewrite <- (sm_pend _ _ K); reflexivity. }
  destruct C as [[CL CN]|[(CL & CN & CD)|(CL & CR & b0 & CQ)]].
  - rewrite CL. cbn [andb]. exists s2, a. split; [reflexivity|]. split; [|split; [intros _; exact PA2|intros b; rewrite PA2; auto]].
    apply (leave_X s2 a q S2 T2); [intros r R LR; congruence|]. intros r _ R. assert (r = p) by congruence. subst r. split; intros C; exfalso; apply CN; [left|right]; congruence.
  - assert ((match p_lib p with Some _ => true | None => false end) = true) as -> by (destruct (p_lib p); [reflexivity|congruence]).
    assert (loaded x = false) as -> by (unfold is_loaded in CN; rewrite Sx in CN; destruct x; auto; exfalso; apply CN; auto). cbn [andb negb].
    set (s3 := setp s2 a (Some (with_events [] p))). pose proof (getp_lt _ _ _ G2) as LT.
    assert (SM3 : same s2 s3) by (eapply same_setp; [exact G2|reflexivity]).
    assert (G3 : getp s3 a = Some (with_events [] p)) by (apply getp_setp_same; exact LT).
    destruct (unreg_all_ok (Some a) s3 a (with_events [] p)) as (s4 & p4 & E4 & S4 & M4 & SM4 & G4 & C4 & V4); auto.
    { exact (Inv_frame _ _ (same_frame _ _ SM3) I2). }
    { exact (St_frame _ _ I2 (same_frame _ _ SM3) ST2). }
    { apply (SafeX_setp (Some a) s2 a p); auto. intros z []. }
    rewrite E4. assert (NL4 : ~ is_loaded p4) by (unfold is_loaded; rewrite (core_status _ _ C4); exact CN).
    destruct (sh_unload_ok s4 (p_id p) a false p4 q) as (s5 & E5 & S5 & P5); auto.
    { rewrite (core_lib _ _ C4). exact CL. }
    { rewrite (tr_mute _ _ _ M4). exact T2. }
    { discriminate. }
    { intros [_ C]. contradiction. }
    rewrite E5. exists s5, a. split; [reflexivity|]. split; [exact S5|].
    assert (PA4 : pa s4 = pa s) by (rewrite (pa_same _ _ SM4), (pa_same _ _ SM3); exact PA2).
    assert (D4 : depth s4 = depth s).
    { rewrite <- (sm_depth _ _ SM4), <- (sm_depth _ _ SM3), (f1_depth _ _ _ F). reflexivity. }
    rewrite D4 in P5. split.
    + intros D. rewrite D in P5. cbn [Nat.eqb] in P5. unfold pa. rewrite P5. exact PA4.
    + intros b Ib. destruct (depth s =? 0); unfold pa in Ib; rewrite P5 in Ib; [left; rewrite <- PA4; exact Ib|]. rewrite map_app in Ib. apply in_app_or in Ib. destruct Ib as [Ib|[<-|[]]]; [left; rewrite <- PA4; exact Ib|right; reflexivity].
  - assert (x = Running) by congruence. subst x. cbn [loaded negb]. rewrite andb_false_r. exists s2, a. split; [reflexivity|]. split; [|split; [intros _; exact PA2|intros b; rewrite PA2; auto]].
    apply (leave_X s2 a q S2 T2).
    + intros r R LR. left. split; [exact L2|]. left. congruence.
    + intros r _ R. assert (r = p) by congruence. subst r. rewrite Sx. split; [intros _; eauto|discriminate].
Qed.
