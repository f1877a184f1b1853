(** Memory safety of the plugin manager: the rest of the operations, histories. *)
From Coq Require Import List ZArith Bool Arith Ascii Lia.
From Verif Require Import Base ListModel StrModel StrSpec StrProofs PlugModel PlugSpec PlugProofs PlugRun PlugSafe PlugSafe2.
Import ListNotations.
Local Open Scope list_scope.
Local Open Scope nat_scope.
Notation length := List.length.

Lemma loaded_is p x : p_status p = Some x -> (loaded x = true <-> is_loaded p).
Proof. intros E. unfold is_loaded. rewrite E. split; [destruct x; try discriminate; auto|intros [C|C]; injection C as ->; reflexivity]. Qed.
Lemma call_others s a c acts s' p : Inv s -> SafeX (Some a) s -> In a (plugins s) -> getp s a = Some p -> p_api p <> None -> subject c = Some a ->
  SafeX (Some a) (say [c] s) -> (St s \/ no_unreg acts) -> call_plugin s a c acts = Some s' -> forall b, b <> a -> tr b s' = tr b s.
Proof.
  intros I SF Ia G A SC S1 U E b N. unfold call_plugin in E. rewrite G, (callable_ok _ _ _ _ SF G A) in E.
  destruct (run_acts_ok (Some a) a acts (say [c] s) p) as (s1 & E1 & S' & M & SM); auto.
  - exact (Inv_frame _ _ (same_frame _ _ (same_say [c] s)) I).
  - exact (sf_x _ _ SF a eq_refl).
  - assert (s1 = s') by congruence. subst s1. rewrite (tr_mute _ _ _ M). destruct (sf_life _ _ SF b) as (q & T & _). rewrite (tr_say b a c s q T SC), T. apply Nat.eqb_neq in N. rewrite N. reflexivity.
Qed.

(** ** Unloading *)
Lemma _Unload_ok s a force c : Inv s -> St s -> SafeX None s -> In a (plugins s) -> ~ In a (pa s) ->
  exists s' r, _Unload s a force c = Some (s', r) /\ SafeX None s' /\ (forall b, In b (pa s') -> In b (pa s) \/ b = a).
Proof.
  intros I ST SF Ia NP. destruct (iv_get _ I a Ia) as (p & G). pose proof (getp_lt _ _ _ G) as LT. unfold _Unload. rewrite G.
  assert (NULLCASE : p_lib p = None -> exists s' r, (do l <- erase_id s (plugins s) (p_id p) ; Some (setp (set_plugins l s) a None, true)) = Some (s', r) /\ SafeX None s' /\ (forall b, In b (pa s') -> In b (pa s) \/ b = a)).
  { intros L. destruct (erase_id_total s (plugins s) (p_id p) (iv_get _ I)) as (l & El). rewrite El. destruct (erase_own s a p l I Ia G El) as (l1 & l2 & E1 & E2).
    eexists _, true. split; [reflexivity|]. split; [|intros b Ib; left; exact Ib]. pose proof (iv_nodup _ I) as ND. rewrite E1 in ND. destruct (NoDup_mid _ _ _ ND) as [_ NI].
    apply (free_ok None (set_plugins l s) a p); auto.
    - apply sub_ok; [exact SF| |].
      + intros b Ib. rewrite E1. apply in_mid. rewrite <- E2. exact Ib.
      + intros b r Ib NIb R LR. exfalso. assert (b = a).
        { destruct (Nat.eq_dec b a) as [e|N]; [exact e|]. exfalso. apply NIb. rewrite E2. apply (in_mid_ne l1 a l2); [rewrite <- E1; exact Ib|exact N]. }
        subst b. assert (r = p) by congruence. subst r. apply (sf_api _ _ SF a p G (sf_run _ _ SF a p Ia G LR)). exact L.
    - cbn. rewrite E2. exact NI. }
  destruct (p_api p) as [ap|] eqn:A.
  2:{ apply NULLCASE. destruct (p_lib p) eqn:L; [exfalso|reflexivity]. destruct (sf_held _ _ SF a p G) as [C|[[_ C]|C]]; [congruence|discriminate| |contradiction]. apply (sf_run _ _ SF a p Ia G C). exact A. }
  destruct (p_lib p) as [h|] eqn:L; [|apply NULLCASE; reflexivity]. clear NULLCASE.
  assert (LD : is_loaded p) by (destruct (sf_held _ _ SF a p G) as [C|[[_ C]|C]]; [congruence|discriminate|exact C|contradiction]).
  destruct (sf_life _ _ SF a) as (q & T & _ & L2 & L3 & _ & L5).
  assert (NX : exists q', next q (CUnload a (snd c) force) = Some q' /\ (if snd c || force then q' = PDead else q' = q)).
  { destruct LD as [C|C]; [destruct (L2 p) as (b & ->)|destruct (L3 p) as (b & ->)]; auto; try discriminate; cbn [next]; destruct (snd c || force); try destruct b; eexists; split; reflexivity. }
  destruct NX as (q' & NX & Q').
  destruct (call_ok s a p (CUnload a (snd c) force) (fst c) q q') as (s1 & E1 & S1 & T1 & SM1); auto.
  { apply enter_X; assumption. }
  { congruence. }
  { intros AL. destruct (snd c || force); subst q'; [intros [C|C]; discriminate|auto]. }
  rewrite E1. destruct (same_getp _ _ _ _ SM1 G) as (p1 & G1 & C1). rewrite G1.
  pose proof (Inv_frame _ _ (same_frame _ _ SM1) I) as I1. pose proof (St_frame _ _ I (same_frame _ _ SM1) ST) as ST1.
  assert (Ia1 : In a (plugins s1)) by (rewrite <- (sm_plugins _ _ SM1); exact Ia).
  destruct (snd c || force).
  - subst q'. pose proof (getp_lt _ _ _ G1) as LT1. set (s2 := setp s1 a (Some (with_events [] p1))).
    assert (SM2 : same s1 s2) by (eapply same_setp; [exact G1|reflexivity]).
    assert (G2 : getp s2 a = Some (with_events [] p1)) by (apply getp_setp_same; exact LT1).
    pose proof (Inv_frame _ _ (same_frame _ _ SM2) I1) as I2. pose proof (St_frame _ _ I1 (same_frame _ _ SM2) ST1) as ST2.
    destruct (unreg_all_ok (Some a) s2 a (with_events [] p1)) as (s3 & p3 & E3 & S3 & M3 & SM3 & G3 & C3 & V3); auto.
    { apply (SafeX_setp (Some a) s1 a p1); auto. intros z []. }
    rewrite E3. pose proof (Inv_frame _ _ (same_frame _ _ SM3) I2) as I3. 
    assert (ID3 : p_id p3 = p_id p1) by (rewrite (core_id _ _ C3); reflexivity).
    assert (Ia3 : In a (plugins s3)) by (rewrite <- (sm_plugins _ _ SM3); exact Ia1).
    destruct (erase_id_total s3 (plugins s3) (p_id p1) (iv_get _ I3)) as (l & El). rewrite El. rewrite <- ID3 in El. destruct (erase_own s3 a p3 l I3 Ia3 G3 El) as (l1 & l2 & P1 & P2).
    pose proof (iv_nodup _ I3) as ND. rewrite P1 in ND. destruct (NoDup_mid _ _ _ ND) as [_ NI].
    destruct (sh_unload_ok (set_plugins l s3) (p_id p1) a true p3 PDead) as (s4 & E4 & S4 & P4); auto.
    { apply sub_ok; [exact S3| |].
      - intros b Ib. rewrite P1. apply in_mid. rewrite <- P2. exact Ib.
      - intros b r Ib NIb _ _. f_equal. destruct (Nat.eq_dec b a) as [->|N]; [reflexivity|]. exfalso. apply NIb. rewrite P2. apply (in_mid_ne l1 a l2); [rewrite <- P1; exact Ib|exact N]. }
    { rewrite (core_lib _ _ C3). cbn [p_lib with_events]. rewrite (core_lib _ _ C1), L. discriminate. }
    { change (tr a (set_plugins l s3)) with (tr a s3). rewrite (tr_mute _ _ _ M3). exact T1. }
    { right. right. reflexivity. }
    { intros _. cbn. rewrite P2. exact NI. }
    { intros [C _]. cbn in C. rewrite P2 in C. exact (NI C). }
    rewrite E4. exists s4, true. split; [reflexivity|]. split; [exact S4|].
    assert (PA : pa s3 = pa s) by (rewrite (pa_same _ _ SM3), (pa_same _ _ SM2); exact (pa_same _ _ SM1)).
    intros b Ib. cbn [depth set_plugins pend] in P4. destruct (depth s3 =? 0); unfold pa in Ib; rewrite P4 in Ib; [left; rewrite <- PA; exact Ib|].
    rewrite map_app in Ib. apply in_app_or in Ib. destruct Ib as [Ib|[<-|[]]]; [left; rewrite <- PA; exact Ib|right; reflexivity].
  - subst q'. exists s1, false. split; [reflexivity|]. split; [|intros b Ib; left; rewrite <- (pa_same _ _ SM1); exact Ib].
    apply (leave_X s1 a q S1 T1).
    + intros r R _. left. split; [exact Ia1|]. assert (r = p1) by congruence. subst r. unfold is_loaded. rewrite (core_status _ _ C1). exact LD.
    + intros r _ R. assert (r = p1) by congruence. subst r. rewrite (core_status _ _ C1). split; intros C; [apply (L2 p)|apply (L3 p)]; auto; discriminate.
Qed.

(** ** Pausing *)
Lemma loaded_free s a p : SafeX None s -> In a (plugins s) -> getp s a = Some p -> is_loaded p -> ~ In a (pa s).
Proof. intros SF Ia G L C. destruct (sf_pend _ _ SF a C) as (r & R & _ & _ & N). apply N. split; [exact Ia|]. congruence. Qed.
Lemma pause_ok b s a c p q q' : Inv s -> St s -> SafeX None s -> In a (plugins s) -> getp s a = Some p -> p_api p <> None -> is_loaded p -> tr a s = Some q ->
  subject c = Some a -> forall acts (ok : bool) x, next q c = Some q' -> (allloaded s = false -> ~ seen q') ->
  (x = Running \/ x = Paused) ->
  (ok = true -> (x = Running -> exists b, q' = PRun b) /\ (x = Paused -> exists b, q' = PPaused b)) -> (ok = false -> q' = q) ->
  exists s', call_plugin s a c acts = Some s' /\
    exists s2 r, (if ok then do p <- getp s' a ; Some (setp (sh_pause b s' (p_id p)) a (Some (with_status x p)), true) else Some (s', false)) = Some (s2, r) /\ SafeX None s2.
Proof.
  intros I ST SF Ia G A LD T SC acts ok x NX AL X OK KO. pose proof (loaded_free _ _ _ SF Ia G LD) as NP.
  destruct (call_ok s a p c acts q q') as (s1 & E1 & S1 & T1 & SM1); auto; [apply enter_X; assumption|].
  exists s1. split; [exact E1|]. destruct (same_getp _ _ _ _ SM1 G) as (p1 & G1 & C1).
  assert (Ia1 : In a (plugins s1)) by (rewrite <- (sm_plugins _ _ SM1); exact Ia).
  destruct ok.
  - rewrite G1. eexists _, true. split; [reflexivity|]. destruct (OK eq_refl) as [OR OP].
    assert (S2 : SafeX (Some a) (sh_pause b s1 (p_id p1))) by (apply (SafeX_heap (Some a) s1); try reflexivity; [apply mute_eq; reflexivity|exact S1]).
    pose proof (getp_lt _ _ _ G1) as LT. assert (GG : getp (setp (sh_pause b s1 (p_id p1)) a (Some (with_status x p1))) a = Some (with_status x p1)) by (apply getp_setp_same; exact LT).
    apply (leave_X _ a q').
    + apply status_ok; [exact S2|exact G1|rewrite (core_api _ _ C1); exact A].
    + exact T1.
    + intros r R _. left. split; [exact Ia1|]. assert (r = with_status x p1) by congruence. subst r. unfold is_loaded. cbn [p_status with_status]. destruct X as [-> | ->]; auto.
    + intros r _ R. assert (r = with_status x p1) by congruence. subst r. cbn [p_status with_status]. split; intros C; injection C as ->; auto.
  - eexists _, false. split; [reflexivity|]. rewrite (KO eq_refl) in T1. destruct (sf_life _ _ SF a) as (q0 & T0 & _ & L2 & L3 & _). assert (q0 = q) by congruence. subst q0. apply (leave_X s1 a q S1 T1).
    + intros r R _. left. split; [exact Ia1|]. assert (r = p1) by congruence. subst r. unfold is_loaded. rewrite (core_status _ _ C1). exact LD.
    + intros r _ R. assert (r = p1) by congruence. subst r. rewrite (core_status _ _ C1). split; intros C; [apply (L2 p)|apply (L3 p)]; auto; discriminate.
Qed.
Lemma _Pause_ok s a c : Inv s -> St s -> SafeX None s -> In a (plugins s) -> exists s' r, _Pause s a c = Some (s', r) /\ SafeX None s'.
Proof.
  intros I ST SF Ia. destruct (iv_get _ I a Ia) as (p & G). unfold _Pause. rewrite G. destruct (p_status p) as [x|] eqn:X; [|exfalso; exact (ST a p Ia G X)].
  destruct x; eauto. destruct (p_api p) as [ap|] eqn:A; [|eauto].
  destruct (sf_life _ _ SF a) as (q & T & _ & L2 & _ & _ & L5). destruct (L2 p) as (b & ->); auto; [discriminate|].
  destruct (pause_ok true s a (CPause a (snd c)) p (PRun b) (if snd c then PPaused b else PRun b)) with (acts := fst c) (ok := snd c) (x := Paused) as (s1 & E1 & s2 & r & E2 & S2); auto.
  - congruence.
  - left. exact X.
  - cbn [next]. destruct b; reflexivity.
  - intros AL. specialize (L5 AL). destruct (snd c); [|exact L5]. intros [C|C]; [discriminate|]. injection C as ->. apply L5. left. reflexivity.
  - intros ->. split; [discriminate|eauto].
  - intros ->. reflexivity.
  - rewrite E1. eauto.
Qed.
Lemma _Unpause_ok s a c : Inv s -> St s -> SafeX None s -> In a (plugins s) -> exists s' r, _Unpause s a c = Some (s', r) /\ SafeX None s'.
Proof.
  intros I ST SF Ia. destruct (iv_get _ I a Ia) as (p & G). unfold _Unpause. rewrite G. destruct (p_status p) as [x|] eqn:X; [|exfalso; exact (ST a p Ia G X)].
  destruct x; eauto. destruct (p_api p) as [ap|] eqn:A; [|eauto].
  destruct (sf_life _ _ SF a) as (q & T & _ & _ & L3 & _ & L5). destruct (L3 p) as (b & ->); auto; [discriminate|].
  destruct (pause_ok false s a (CUnpause a (snd c)) p (PPaused b) (if snd c then PRun b else PPaused b)) with (acts := fst c) (ok := snd c) (x := Running) as (s1 & E1 & s2 & r & E2 & S2); auto.
  - congruence.
  - right. exact X.
  - intros AL. specialize (L5 AL). destruct (snd c); [|exact L5]. intros [C|C]; [|discriminate]. injection C as ->. apply L5. right. reflexivity.
  - intros ->. split; [eauto|discriminate].
  - intros ->. reflexivity.
  - rewrite E1. eauto.
Qed.

(** ** Pending unloads *)
Lemma ready_pend s l a d : ready (set_pend l s) a d = option_map (set_pend l) (ready s a d).
Proof.
  unfold ready. change (getp (set_pend l s) a) with (getp s a). destruct (getp s a) as [p|]; [|reflexivity].
  change (is_open (set_pend l s)) with (is_open s). destruct (p_ufn p) as [h|].
  - destruct (is_open s h); [|reflexivity]. change (say [CUnloadFn a] (set_pend l s)) with (set_pend l (say [CUnloadFn a] s)). change (is_open (set_pend l (say [CUnloadFn a] s))) with (is_open (say [CUnloadFn a] s)).
    destruct (p_lib p) as [k|]; [destruct (is_open (say [CUnloadFn a] s) k); [|reflexivity]|]; destruct d; reflexivity.
  - change (is_open (set_pend l s)) with (is_open s). destruct (p_lib p) as [k|]; [destruct (is_open s k); [|reflexivity]|]; destruct d; reflexivity.
Qed.
Lemma SafeX_pend X s l l' : map u_addr l' = map u_addr l -> SafeX X (set_pend l s) -> SafeX X (set_pend l' s).
Proof.
  intros E SF. assert (PA : pa (set_pend l' s) = pa (set_pend l s)) by exact E.
  destruct SF as [sf_open0 sf_uniq0 sf_ufn0 sf_api0 sf_run0 sf_apis0 sf_ev0 sf_held0 sf_pend0 sf_pnd0 sf_x0 sf_own0 sf_life0]. split; auto; try (rewrite PA; assumption).
Qed.
Lemma drop_pend s k u l : SafeX None (set_pend (k ++ u :: l) s) -> SafeX (Some (u_addr u)) (set_pend (k ++ l) s).
Proof.
  intros SF. set (a := u_addr u).
  assert (P1 : pa (set_pend (k ++ u :: l) s) = map u_addr k ++ a :: map u_addr l) by (unfold pa; cbn; rewrite map_app; reflexivity).
  assert (P2 : pa (set_pend (k ++ l) s) = map u_addr k ++ map u_addr l) by (unfold pa; cbn; rewrite map_app; reflexivity).
  pose proof (sf_pnd _ _ SF) as ND. rewrite P1 in ND. destruct (NoDup_mid _ _ _ ND) as [ND2 NI].
  destruct SF as [sf_open0 sf_uniq0 sf_ufn0 sf_api0 sf_run0 sf_apis0 sf_ev0 sf_held0 sf_pend0 sf_pnd0 sf_x0 sf_own0 sf_life0]. split; auto.
  - intros b p G L. destruct (sf_held0 b p G L) as [C|[C|C]]; [discriminate|auto|]. destruct (Nat.eq_dec b a) as [->|N]; [auto|]. right. right. rewrite P2. rewrite P1 in C. apply (in_mid_ne _ a _ _ C N).
  - intros b Ib. apply sf_pend0. rewrite P1. apply in_mid. rewrite <- P2. exact Ib.
  - rewrite P2. exact ND2.
  - intros b E. injection E as <-. rewrite P2. exact NI.
  - intros b. destruct (sf_life0 b) as (q & T & L1 & L2 & L3 & L4 & L5). exists q. split; [exact T|]. split; [exact L1|]. split; [intros p _; apply L2; discriminate|]. split; [intros p _; apply L3; discriminate|]. split; [|exact L5]. intros Ib. apply L4. rewrite P2 in Ib. rewrite P1. apply in_mid. exact Ib.
Qed.
Lemma resolve_ok force : forall l k s, SafeX None (set_pend (k ++ l) s) -> (forall u, In u l -> u_destroy u = true -> ~ In (u_addr u) (plugins s)) ->
  exists s' l', resolve force s l = Some (s', l') /\ SafeX None (set_pend (k ++ l') s').
Proof.
  induction l as [|u l IH]; intros k s SF D; cbn [resolve]; [eauto|]. destruct (negb force && negb (u_deactivated u)).
  - set (u' := mkPend (u_addr u) (u_destroy u) true). destruct (IH (k ++ [u']) s) as (s' & l' & E & S').
    + apply (SafeX_pend None s (k ++ u :: l)); [|exact SF]. rewrite <- app_assoc, !map_app. reflexivity.
    + intros v Iv. apply D. right. exact Iv.
    + rewrite E. cbn [fst snd]. eexists _, _. split; [reflexivity|]. rewrite <- app_assoc in S'. exact S'.
  - pose proof (drop_pend s k u l SF) as SX. assert (IP : In (u_addr u) (pa (set_pend (k ++ u :: l) s))) by (unfold pa; cbn; rewrite map_app; apply in_elt).
    destruct (sf_pend _ _ SF _ IP) as (p & G & L & EV & NL). destruct (sf_life _ _ SF (u_addr u)) as (q & T & _ & _ & _ & DY & _).
    destruct (ready_ok (set_pend (k ++ l) s) (u_addr u) (u_destroy u) p q) as (s1 & E1 & S1 & _); auto.
    { intros Dd. apply (D u); [left; reflexivity|exact Dd]. }
    rewrite ready_pend in E1. destruct (ready s (u_addr u) (u_destroy u)) as [s2|] eqn:R; [|discriminate]. cbn [option_map] in E1. injection E1 as <-.
    apply IH; [exact S1|]. destruct (ready_spec _ _ _ _ R) as (_ & _ & _ & PL & _). rewrite PL. intros v Iv. apply D. right. exact Iv.
Qed.
Lemma set_pend_self s : set_pend (pend s) s = s.
Proof. destruct s. reflexivity. Qed.
Lemma resolve_pending_ok force s : Inv s -> SafeX None s -> exists s', resolve_pending force s = Some s' /\ SafeX None s'.
Proof.
  intros I SF. unfold resolve_pending. destruct (resolve_ok force (pend s) [] s) as (s' & l' & E & S').
  - cbn [app]. rewrite set_pend_self. exact SF.
  - intros u Iu D. exact (proj2 (iv_pend _ I u Iu) D).
  - rewrite E. cbn [fst snd]. eauto.
Qed.

(** ** The manager's operations *)
Lemma SafeX_last X s z : SafeX X s -> SafeX X (set_last z s).
Proof. intros SF. apply (SafeX_heap X s); try reflexivity; [apply mute_eq; reflexivity|exact SF]. Qed.
Lemma fresh_in s li : api_fresh s li -> forall x b r, li_api1 li = Some x \/ li_api2 li = Some x -> In b (plugins s) -> getp s b = Some r -> p_api r <> Some x.
Proof.
  intros F x b r E Ib G. apply (F x r E). unfold listed. apply in_flat_map. exists b. split; [exact Ib|]. rewrite G. left. reflexivity.
Qed.
Lemma Load_ok s file li : Good s -> SafeX None s -> no_unreg (fst (li_load li)) -> api_fresh s li -> exists s' r, Load s file li = Some (s', r) /\ SafeX None s'.
Proof.
  intros GS SF NU FR. pose proof GS as (I & ST & FI). unfold Load. destruct (load_scan_total s file (plugins s)) as ([[l al] e] & L).
  { intros a Ia. destruct (iv_get _ I a Ia) as (p & G). exists p. split; [exact G|exact (ST a p Ia G)]. }
  rewrite L. destruct (load_scan_spec _ _ _ _ _ _ L) as (J & N & DR & _ & _).
  assert (S1 : SafeX None (set_plugins l s)).
  { apply sub_ok; [exact SF|exact J|]. intros b p Ib NI G LD. exfalso. destruct (DR b Ib NI) as (p' & x & G' & X & Lx & _). assert (p' = p) by congruence. subst p'. apply (loaded_is p x X) in LD. congruence. }
  assert (GS1 : Good (set_plugins l s)) by (apply Good_sub; auto; apply N, GS). destruct GS1 as (I1 & ST1 & _).
  destruct e as [id|]; [eauto|].
  destruct (_Load_ok (set_plugins l s) file li I1 ST1 S1 NU) as (s2 & a & E & S2 & _).
  { intros x b r Ex Ib G. apply (fresh_in s li FR x b r Ex); [apply J; exact Ib|exact G]. }
  rewrite E. destruct (_Load_spec _ _ _ _ _ I1 E) as (_ & I2 & _ & _ & _ & _ & _ & p & x & G & _). rewrite G.
  destruct (iter_ok None s2 OnLoad (p_id p) I2 S2) as (s3 & E3 & S3 & _). rewrite E3. eauto.
Qed.
Lemma Unload_ok s id force c : Good s -> SafeX None s -> (forall a p, In a (plugins s) -> getp s a = Some p -> p_id p = id -> ~ In a (pa s)) ->
  exists s' r, Unload s id force c = Some (s', r) /\ SafeX None s'.
Proof.
  intros (I & ST & _) SF NP. unfold Unload. destruct (find_id_total s (plugins s) id (iv_get _ I)) as (o & E). rewrite E. apply find_id_spec in E. destruct o as [a|]; [|eauto].
  destruct E as (Ia & p & G & Eid). rewrite G. destruct (_Unload_ok s a force c I ST SF Ia (NP a p Ia G Eid)) as (s1 & r & E1 & S1 & _). rewrite E1. destruct r; [|eauto].
  destruct (_Unload_spec _ _ _ _ _ _ I Ia E1) as (I1 & _). destruct (iter_ok None s1 OnUnload (p_id p) I1 S1) as (s2 & E2 & S2 & _). rewrite E2. eauto.
Qed.
Lemma Pause_ok s id c : Good s -> SafeX None s -> exists s' r, Pause s id c = Some (s', r) /\ SafeX None s'.
Proof.
  intros GS SF. pose proof GS as (I & ST & _). unfold Pause. destruct (find_id_total s (plugins s) id (iv_get _ I)) as (o & E). rewrite E. apply find_id_spec in E. destruct o as [a|]; [|eauto].
  destruct E as (Ia & p & G & _). destruct (_Pause_ok s a c I ST SF Ia) as (s1 & r & E1 & S1). rewrite E1. destruct r; [|eauto].
  destruct (_Pause_Good _ _ _ _ _ GS Ia E1) as [(I1 & _) _]. assert (X : exists p1, getp s1 a = Some p1).
  { unfold _Pause in E1. rewrite G in E1. destruct (p_status p) as [x|]; [|discriminate]. destruct x; try discriminate. destruct (p_api p); [|discriminate]. destruct (call_plugin _ _ _ _) as [s2|] eqn:K; [|discriminate]. destruct (snd c); [|discriminate]. destruct (getp s2 a) as [p2|] eqn:G2; [|discriminate]. injection E1 as <-. eexists. apply getp_setp_same. exact (getp_lt _ _ _ G2). }
  destruct X as (p1 & G1). rewrite G1. destruct (iter_ok None s1 OnPause (p_id p1) I1 S1) as (s2 & E2 & S2 & _). rewrite E2. eauto.
Qed.
Lemma Unpause_ok s id c : Good s -> SafeX None s -> exists s' r, Unpause s id c = Some (s', r) /\ SafeX None s'.
Proof.
  intros GS SF. pose proof GS as (I & ST & _). unfold Unpause. destruct (find_id_total s (plugins s) id (iv_get _ I)) as (o & E). rewrite E. apply find_id_spec in E. destruct o as [a|]; [|eauto].
  destruct E as (Ia & p & G & _). destruct (_Unpause_ok s a c I ST SF Ia) as (s1 & r & E1 & S1). rewrite E1. destruct r; [|eauto].
  destruct (_Unpause_Good _ _ _ _ _ GS Ia E1) as [(I1 & _) _]. assert (X : exists p1, getp s1 a = Some p1).
  { unfold _Unpause in E1. rewrite G in E1. destruct (p_status p) as [x|]; [|discriminate]. destruct x; try discriminate. destruct (p_api p); [|discriminate]. destruct (call_plugin _ _ _ _) as [s2|] eqn:K; [|discriminate]. destruct (snd c); [|discriminate]. destruct (getp s2 a) as [p2|] eqn:G2; [|discriminate]. injection E1 as <-. eexists. apply getp_setp_same. exact (getp_lt _ _ _ G2). }
  destruct X as (p1 & G1). rewrite G1. destruct (iter_ok None s1 OnUnpause (p_id p1) I1 S1) as (s2 & E2 & S2 & _). rewrite E2. eauto.
Qed.
Lemma with_id_ok s b q id : SafeX None s -> getp s b = Some q -> SafeX None (setp s b (Some (with_id id q))).
Proof.
  intros SF G. pose proof (getp_lt _ _ _ G) as LT. set (q' := with_id id q).
  assert (B : forall d r, getp (setp s b (Some q')) d = Some r -> exists r0, getp s d = Some r0 /\ p_lib r = p_lib r0 /\ p_ufn r = p_ufn r0 /\ p_api r = p_api r0 /\ p_events r = p_events r0 /\ p_status r = p_status r0).
  { intros d r. rewrite getp_setp by exact LT. destruct (Nat.eqb_spec d b) as [->|N]; [intros E; injection E as <-; exists q; split; [exact G|]; repeat split|intros R; exists r; split; [exact R|]; repeat split]. }
  assert (F : forall d r, getp s d = Some r -> exists r', getp (setp s b (Some q')) d = Some r' /\ p_lib r' = p_lib r /\ p_events r' = p_events r /\ p_status r' = p_status r).
  { intros d r R. rewrite getp_setp by exact LT. destruct (Nat.eqb_spec d b) as [->|N]; [exists q'; assert (r = q) by congruence; subst; repeat split|exists r; repeat split; exact R]. }
  destruct SF as [sf_open0 sf_uniq0 sf_ufn0 sf_api0 sf_run0 sf_apis0 sf_ev0 sf_held0 sf_pend0 sf_pnd0 sf_x0 sf_own0 sf_life0].
  split; change (pa (setp s b (Some q'))) with (pa s); change (plugins (setp s b (Some q'))) with (plugins s); change (libs (setp s b (Some q'))) with (libs s); change (nlib (setp s b (Some q'))) with (nlib s).
  - intros d r h R. destruct (B d r R) as (r0 & R0 & -> & _). eauto.
  - intros d e r t h R T. destruct (B d r R) as (r0 & R0 & -> & _). destruct (B e t T) as (t0 & T0 & -> & _). eauto.
  - intros d r h h' R. destruct (B d r R) as (r0 & R0 & -> & -> & _). eauto.
  - intros d r R. destruct (B d r R) as (r0 & R0 & -> & _ & -> & _). eauto.
  - intros d r Id R. destruct (B d r R) as (r0 & R0 & _ & _ & -> & _ & X). unfold is_loaded. rewrite X. apply (sf_run0 d r0 Id R0).
  - intros d e r t x Id Ie R T. destruct (B d r R) as (r0 & R0 & _ & _ & -> & _). destruct (B e t T) as (t0 & T0 & _ & _ & -> & _). eauto.
  - intros d r e R. destruct (B d r R) as (r0 & R0 & -> & _ & _ & -> & _). eauto.
  - intros d r R L. destruct (B d r R) as (r0 & R0 & X1 & _ & _ & _ & X). unfold is_loaded. rewrite X. apply (sf_held0 d r0 R0). congruence.
  - intros d Id. destruct (sf_pend0 d Id) as (r & R & R1 & R2 & R3). destruct (F d r R) as (r' & R' & E1 & E2 & E3). exists r'. split; [exact R'|]. split; [congruence|]. split; [congruence|]. unfold is_loaded. rewrite E3. exact R3.
  - assumption.
  - assumption.
  - intros h Ih. destruct (sf_own0 h Ih) as (d & r & R & E). destruct (F d r R) as (r' & R' & E1 & _). exists d, r'. split; [exact R'|congruence].
  - intros d. destruct (sf_life0 d) as (q0 & T & L1 & L2 & L3 & L4 & L5). exists q0. split; [exact T|]. cbn [heap setp set_heap]. rewrite setnth_length. split; [exact L1|].
    split; [intros r NX Id R X; destruct (B d r R) as (r0 & R0 & _ & _ & _ & _ & X0); apply (L2 r0); auto; congruence|]. split; [intros r NX Id R X; destruct (B d r R) as (r0 & R0 & _ & _ & _ & _ & X0); apply (L3 r0); auto; congruence|]. auto.
Qed.
Lemma _Load_St s file li s' a : Inv s -> St s -> _Load s file li = Some (s', a) -> St s'.
Proof.
  intros I ST E b p Ib G. destruct (_Load_spec _ _ _ _ _ I E) as (Ea & _ & P & _ & _ & _ & K & q & x & Gq & _ & _ & X). rewrite P in Ib. apply in_app_or in Ib. destruct Ib as [Ib|[<-|[]]]; [|congruence].
  destruct (iv_get _ I b Ib) as (r & R). destruct (K b r Ib R) as (r' & R' & V). assert (r' = p) by congruence. subst r'. rewrite (vw_status _ _ V). exact (ST b r Ib R).
Qed.
Lemma Retry_ok s id li c : Good s -> SafeX None s -> no_unreg (fst (li_load li)) -> api_fresh s li -> depth s = 0 ->
  (forall a p, In a (plugins s) -> getp s a = Some p -> p_id p = id -> ~ In a (pa s)) ->
  exists s' r, Retry s id li c = Some (s', r) /\ SafeX None s'.
Proof.
  intros (I & ST & _) SF NU FR D0 NP. unfold Retry. destruct (find_id_total s (plugins s) id (iv_get _ I)) as (o & E). rewrite E. apply find_id_spec in E. destruct o as [a|]; [|eauto].
  destruct E as (Ia & p & G & Eid). rewrite G. destruct (p_status p) as [x|] eqn:X; [|exfalso; exact (ST a p Ia G X)]. destruct (loaded x) eqn:Lx; [eauto|].
  destruct (_Load_ok s (p_file p) li I ST SF NU (fresh_in s li FR)) as (s1 & b & L & S1 & P0 & _). rewrite L. specialize (P0 D0).
  pose proof (_Load_St _ _ _ _ _ I ST L) as ST1. destruct (_Load_spec _ _ _ _ _ I L) as (Eb & I1 & P1 & _ & _ & _ & _ & q & y & G1 & _ & _ & Y). rewrite G1, Y.
  assert (IaP : In a (plugins s1)) by (rewrite P1; apply in_or_app; left; exact Ia).
  assert (IbP : In b (plugins s1)) by (rewrite P1; apply in_or_app; right; left; reflexivity).
  assert (NE : b <> a) by (pose proof (listed_lt _ _ I Ia); lia).
  destruct (loaded y).
  - destruct (_Unload_ok s1 a true c I1 ST1 S1 IaP) as (s2 & r & U & S2 & _); [rewrite P0; exact (NP a p Ia G Eid)|]. rewrite U.
    destruct (_Unload_spec _ _ _ _ _ _ I1 IaP U) as (_ & _ & _ & _ & P2 & K2 & _ & Bt). rewrite (Bt eq_refl) in P2. destruct P2 as (l1 & l2 & P2a & P2b).
    assert (Ib2 : In b (plugins s2)) by (rewrite P2b; apply (in_mid_ne l1 a l2); [rewrite <- P2a; exact IbP|exact NE]).
    destruct (K2 b q Ib2 G1) as (q2 & G2 & _). rewrite G2. eexists _, true. split; [reflexivity|]. apply SafeX_last, with_id_ok; assumption.
  - destruct (_Unload_ok s1 b true c I1 ST1 S1 IbP) as (s2 & r & U & S2 & _).
    { rewrite P0. intros C. apply in_map_iff in C. destruct C as (u & Eu & Iu). destruct (iv_pend _ I u Iu). lia. }
    rewrite U. eexists _, false. split; [reflexivity|]. apply SafeX_last. exact S2.
Qed.
Lemma UnloadAll_ok : forall fuel s cs, Inv s -> St s -> SafeX None s -> (forall a, In a (plugins s) -> ~ In a (pa s)) -> exists r, UnloadAll fuel s cs = Some r /\ (forall s' b, r = Some (s', b) -> SafeX None s').
Proof.
  induction fuel as [|f IH]; intros s cs I ST SF NP; cbn [UnloadAll]; destruct (plugins s) as [|a l] eqn:P.
  - eexists. split; [reflexivity|]. intros s' b E. injection E as <- _. exact SF.
  - eexists. split; [reflexivity|discriminate].
  - eexists. split; [reflexivity|]. intros s' b E. injection E as <- _. exact SF.
  - assert (Ia : In a (plugins s)) by (rewrite P; left; reflexivity). destruct (_Unload_ok s a true (cs a) I ST SF Ia) as (s1 & r & E & S1 & NP1); [apply NP; left; reflexivity|]. rewrite E.
    destruct (_Unload_spec _ _ _ _ _ _ I Ia E) as (I1 & _ & _ & _ & P2 & K & _ & Bt). rewrite (Bt eq_refl) in P2. destruct P2 as (l1 & l2 & P2a & P2b).
    pose proof (iv_nodup _ I) as ND. rewrite P2a in ND. destruct (NoDup_mid _ _ _ ND) as [_ NI]. 
    assert (J : forall b, In b (plugins s1) -> In b (plugins s) /\ b <> a).
    { intros b Ib. rewrite P2b in Ib. split; [rewrite P2a; apply in_mid; exact Ib|intros ->; contradiction]. }
    destruct (IH s1 cs) as (r' & E' & S'); auto.
    + intros b p Ib G. destruct (J b Ib) as [Ib0 _]. destruct (iv_get _ I b Ib0) as (p0 & G0). destruct (K b p0 Ib G0) as (p1 & G1 & V). assert (p1 = p) by congruence. subst p1. rewrite (vw_status _ _ V). exact (ST b p0 Ib0 G0).
    + intros b Ib C. destruct (J b Ib) as [Ib0 N]. rewrite P in Ib0. destruct (NP1 b C) as [C'|C']; [exact (NP b Ib0 C')|contradiction].
    + rewrite E'. destruct r' as [[s2 b']|]; eexists; (split; [reflexivity|]); [|discriminate]. intros s' b'' Q. injection Q as <- _. exact (S' s2 b' eq_refl).
Qed.
Lemma all_loop_ok : forall l s cs, Inv s -> St s -> SafeX None s -> NoDup l -> (forall a, In a l -> In a (plugins s)) -> allloaded s = true ->
  (forall a q, In a l -> tr a s = Some q -> ~ seen q) -> exists s', all_loop s l cs = Some s' /\ SafeX None s'.
Proof.
  induction l as [|a l IH]; intros s cs I ST SF ND J AL NS; cbn [all_loop]; [eauto|]. inversion ND as [|? ? NI ND']. subst.
  assert (Ia : In a (plugins s)) by (apply J; left; reflexivity). destruct (iv_get _ I a Ia) as (p & G). rewrite G. destruct (p_status p) as [x|] eqn:X; [|exfalso; exact (ST a p Ia G X)].
  assert (SKIP : exists s', all_loop s l cs = Some s' /\ SafeX None s').
  { apply IH; auto; [intros b Ib; apply J; right; exact Ib|intros b q Ib; apply NS; right; exact Ib]. }
  destruct x; try exact SKIP. destruct (p_api p) as [ap|] eqn:A; [|exact SKIP]. clear SKIP.
  assert (LD : is_loaded p) by (left; exact X). pose proof (loaded_free _ _ _ SF Ia G LD) as NP.
  destruct (sf_life _ _ SF a) as (q & T & _ & L2 & _). destruct (L2 p) as (b & ->); auto; [discriminate|].
  assert (b = false) by (destruct b; [exfalso; apply (NS a (PRun true)); auto; [left; reflexivity|left; reflexivity]|reflexivity]). subst b.
  pose proof (enter_X s a SF NP) as SX.
  assert (AN : p_api p <> None) by congruence.
  destruct (say_ok s a (CAllLoaded a) (PRun false) (PRun true) SX (getp_lt _ _ _ G) T eq_refl eq_refl) as [SS _]; [congruence|].
  destruct (call_ok s a p (CAllLoaded a) (cs a) (PRun false) (PRun true)) as (s1 & E1 & S1 & T1 & SM1); auto; [congruence|].
  pose proof (call_others s a (CAllLoaded a) (cs a) s1 p I SX Ia G AN eq_refl SS (or_introl ST) E1) as OT.
  rewrite E1. destruct (same_getp _ _ _ _ SM1 G) as (p1 & G1 & C1).
  apply IH; auto.
  - exact (Inv_frame _ _ (same_frame _ _ SM1) I).
  - exact (St_frame _ _ I (same_frame _ _ SM1) ST).
  - apply (leave_X s1 a (PRun true) S1 T1).
    + intros r R _. left. split; [rewrite <- (sm_plugins _ _ SM1); exact Ia|]. assert (r = p1) by congruence. subst r. unfold is_loaded. rewrite (core_status _ _ C1). exact LD.
    + intros r _ R. assert (r = p1) by congruence. subst r. rewrite (core_status _ _ C1), X. split; [eauto|discriminate].
  - intros b Ib. rewrite <- (sm_plugins _ _ SM1). apply J. right. exact Ib.
  - rewrite <- (sm_all _ _ SM1). exact AL.
  - intros b q Ib. rewrite OT; [apply NS; right; exact Ib|]. intros ->. contradiction.
Qed.
Lemma setall_ok s : SafeX None s -> SafeX None (set_allloaded true s).
Proof.
  intros [sf_open0 sf_uniq0 sf_ufn0 sf_api0 sf_run0 sf_apis0 sf_ev0 sf_held0 sf_pend0 sf_pnd0 sf_x0 sf_own0 sf_life0]. split; auto.
  intros a. destruct (sf_life0 a) as (q & T & L1 & L2 & L3 & L4 & _). exists q. split; [exact T|]. split; [exact L1|]. split; [exact L2|]. split; [exact L3|]. split; [exact L4|discriminate].
Qed.

Theorem step_ok s o : Good s -> SafeX None s -> allowed s o -> exists s' r, step s o = Some (s', r) /\ SafeX None s'.
Proof.
  intros GS SF AL. pose proof GS as (I & ST & _). destruct o; cbn [step allowed] in *.
  - destruct AL as [NU FR]. destruct (Load_ok s file li GS SF NU FR) as (s1 & r & E & S1). rewrite E. eauto.
  - destruct (Unload_ok s id force c GS SF AL) as (s1 & r & E & S1). rewrite E. eauto.
  - destruct (Pause_ok s id c GS SF) as (s1 & r & E & S1). rewrite E. eauto.
  - destruct (Unpause_ok s id c GS SF) as (s1 & r & E & S1). rewrite E. eauto.
  - destruct AL as (NU & FR & D0 & NP). destruct (Retry_ok s id li c GS SF NU FR D0 NP) as (s1 & r & E & S1). rewrite E. eauto.
  - destruct (UnloadAll_ok (length (plugins s)) s cs I ST SF AL) as (r & E & S1). rewrite E. destruct (UnloadAll_total (length (plugins s)) s cs r I (le_n _) E) as (s' & -> & _). cbn [fst snd]. eexists _, _. split; [reflexivity|]. exact (S1 s' true eq_refl).
  - unfold SetAllLoaded. destruct (allloaded s) eqn:A; [eauto|]. destruct (Good_eq s (set_allloaded true s) eq_refl eq_refl eq_refl eq_refl GS) as [(I1 & ST1 & _) _].
    destruct (all_loop_ok (plugins s) (set_allloaded true s) cs) as (s1 & E & S1); auto.
    + apply setall_ok. exact SF.
    + apply I.
    + intros a q _ T. destruct (sf_life _ _ SF a) as (q' & T' & _ & _ & _ & _ & L5). change (tr a (set_allloaded true s)) with (tr a s) in T. assert (q' = q) by congruence. subst q'. exact (L5 A).
    + rewrite E. eauto.
  - destruct (existsb (Nat.eqb a) (plugins s)) eqn:X; [|eauto]. apply existsb_exists in X. destruct X as (b & Ia & Eb). apply Nat.eqb_eq in Eb. subst b.
    destruct (iv_get _ I a Ia) as (p & G). rewrite G. destruct (p_status p) as [x|] eqn:Sx; [|exfalso; exact (ST a p Ia G Sx)]. destruct (loaded x) eqn:Lx; [|eauto]. apply (loaded_is p x Sx) in Lx.
    destruct (run_acts_ok None a acts s p I SF Ia G (sf_run _ _ SF a p Ia G Lx) (loaded_free _ _ _ SF Ia G Lx) (or_introl ST)) as (s1 & E & S1 & _). rewrite E. eauto.
  - eexists _, _. split; [reflexivity|]. apply (SafeX_heap None s); try reflexivity; [apply mute_eq; reflexivity|exact SF].
  - destruct (depth s) as [|n]; [eauto|]. assert (S1 : SafeX None (set_depth n s)) by (apply (SafeX_heap None s); try reflexivity; [apply mute_eq; reflexivity|exact SF]).
    destruct n; [|eauto]. destruct (Good_eq s (set_depth 0 s) eq_refl eq_refl eq_refl eq_refl GS) as [(I1 & _) _]. destruct (resolve_pending_ok false _ I1 S1) as (s2 & E & S2). rewrite E. eauto.
  - destruct (resolve_pending_ok true s I SF) as (s1 & E & S1). rewrite E. eauto.
Qed.
Lemma init_Safe : SafeX None init.
Proof.
  assert (NG : forall a p, getp init a = Some p -> False) by (intros a p; unfold getp; cbn; destruct a; discriminate).
  split.
  - intros a p h G. destruct (NG _ _ G).
  - intros a b p q h G. destruct (NG _ _ G).
  - intros a p h h' G. destruct (NG _ _ G).
  - intros a p G. destruct (NG _ _ G).
  - intros a p [].
  - intros a b p q x [].
  - intros a p e G. destruct (NG _ _ G).
  - intros a p G. destruct (NG _ _ G).
  - intros a [].
  - constructor.
  - discriminate.
  - intros h [].
  - intros a. exists PNew. split; [reflexivity|]. split; [reflexivity|]. split; [intros p _ []|]. split; [intros p _ []|]. split; [intros []|]. intros _ [C|C]; discriminate.
Qed.
Theorem guarded_ok : forall ops s, Good s -> SafeX None s -> guarded s ops -> exists s' rs, run s ops = Some (s', rs) /\ SafeX None s' /\ Good s'.
Proof.
  induction ops as [|o ops IH]; intros s GS SF G; cbn [run]; [eauto|]. destruct G as [AL G]. destruct (step_ok s o GS SF AL) as (s1 & r & E & S1). rewrite E. cbn [fst snd].
  destruct (step_Good _ _ _ _ GS E) as [GS1 _]. destruct (IH s1 GS1 S1 (G s1 r E)) as (s2 & rs & E2 & S2 & G2). rewrite E2. cbn [fst snd]. eauto.
Qed.
