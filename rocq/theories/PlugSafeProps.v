(** C42: what happens to a plugin in which state. *)
From Coq Require Import List ZArith Bool Arith Ascii String Lia.
From Verif Require Import Base ListModel StrModel StrSpec StrProofs PlugModel PlugSpec PlugProofs PlugRun PlugSafe PlugSafe2 PlugSafe3 PlugProps.
Import ListNotations.
Local Open Scope list_scope.
Local Open Scope nat_scope.
Notation length := List.length.

(** ** Every callback is made in a state that allows it, nothing is used after it
    was freed or its library was closed *)
Theorem C42_callbacks : forall ops, guarded init ops ->
  exists s rs, run init ops = Some (s, rs) /\
    forall a, exists q, trace a PNew (log s) = Some q /\
      (forall p, In a (plugins s) -> getp s a = Some p ->
         (p_status p = Some Running -> exists b, q = PRun b) /\ (p_status p = Some Paused -> exists b, q = PPaused b)).
Proof.
  intros ops G. destruct (guarded_ok ops init init_Good init_Safe G) as (s & rs & R & SF & _). exists s, rs. split; [exact R|].
  intros a. destruct (sf_life _ _ SF a) as (q & T & _ & L2 & L3 & _). exists q. split; [exact T|]. intros p Ia Gp. split; intros X; [apply (L2 p)|apply (L3 p)]; auto; discriminate.
Qed.
Print Assumptions C42_callbacks.

(** AllPluginsLoaded and UnloadInterface are called at most once per plugin. *)
Definition is_all (a : nat) (c : call) : bool := match c with CAllLoaded b => b =? a | _ => false end.
Definition is_ufn (a : nat) (c : call) : bool := match c with CUnloadFn b => b =? a | _ => false end.
Lemma trace_none_all a : forall l q q', trace a q l = Some q' -> (q = PRun true \/ q = PPaused true \/ q = PRefused \/ q = PDead \/ q = PGone) -> filter (is_all a) l = [].
Proof.
  induction l as [|c l IH]; intros q q' T Q; [reflexivity|]. cbn [trace] in T. cbn [filter].
  assert (SK : subject c <> Some a -> is_all a c = false).
  { destruct c; cbn; try reflexivity. intros N. apply Nat.eqb_neq. congruence. }
  destruct (subject c) as [b|] eqn:SC.
  - destruct (Nat.eqb_spec a b) as [<-|N].
    + destruct (next q c) as [q1|] eqn:X; [|discriminate].
      assert (is_all a c = false /\ (q1 = PRun true \/ q1 = PPaused true \/ q1 = PRefused \/ q1 = PDead \/ q1 = PGone)) as [-> Q1].
      { destruct Q as [-> | [-> | [-> | [-> | ->]]]]; destruct c; try discriminate X; cbn [next] in X; injection X as <-; (split; [reflexivity|]); try (destruct ok; try destruct force; cbn; tauto); tauto. }
      exact (IH _ _ T Q1).
    + rewrite SK by congruence. exact (IH _ _ T Q).
  - rewrite SK by congruence. exact (IH _ _ T Q).
Qed.
Lemma trace_all a : forall l q q', trace a q l = Some q' -> length (filter (is_all a) l) <= 1.
Proof.
  induction l as [|c l IH]; intros q q' T; [auto|]. cbn [trace] in T. cbn [filter].
  destruct (is_all a c) eqn:X.
  - destruct c; try discriminate X. cbn in X. apply Nat.eqb_eq in X. subst a0. cbn [subject] in T. rewrite Nat.eqb_refl in T. destruct (next q (CAllLoaded a)) as [q1|] eqn:N; [|discriminate].
    assert (q1 = PRun true) by (destruct q as [|[]|[]| | |]; cbn in N; congruence). subst q1. cbn [length]. rewrite (trace_none_all a l _ _ T); auto.
  - destruct (subject c) as [b|]; [destruct (a =? b); [destruct (next q c); [eauto|discriminate]|eauto]|eauto].
Qed.
Lemma trace_gone a : forall l q', trace a PGone l = Some q' -> filter (is_ufn a) l = [].
Proof.
  induction l as [|c l IH]; intros q' T; [reflexivity|]. cbn [trace] in T. cbn [filter].
  assert (SK : subject c <> Some a -> is_ufn a c = false).
  { destruct c; cbn; try reflexivity. intros N. apply Nat.eqb_neq. congruence. }
  destruct (subject c) as [b|] eqn:SC.
  - destruct (Nat.eqb_spec a b) as [<-|N]; [destruct c; discriminate T|]. rewrite SK by congruence. eauto.
  - rewrite SK by congruence. eauto.
Qed.
Lemma trace_ufn a : forall l q q', trace a q l = Some q' -> length (filter (is_ufn a) l) <= 1.
Proof.
  induction l as [|c l IH]; intros q q' T; [auto|]. cbn [trace] in T. cbn [filter].
  destruct (is_ufn a c) eqn:X.
  - destruct c; try discriminate X. cbn in X. apply Nat.eqb_eq in X. subst a0. cbn [subject] in T. rewrite Nat.eqb_refl in T. destruct (next q (CUnloadFn a)) as [q1|] eqn:N; [|discriminate].
    assert (q1 = PGone) by (destruct q as [|[]|[]| | |]; cbn in N; congruence). subst q1. cbn [length]. rewrite (trace_gone a l _ T); auto.
  - destruct (subject c) as [b|]; [destruct (a =? b); [destruct (next q c); [eauto|discriminate]|eauto]|eauto].
Qed.
Theorem C42_once : forall ops s rs a, guarded init ops -> run init ops = Some (s, rs) ->
  length (filter (is_all a) (log s)) <= 1 /\ length (filter (is_ufn a) (log s)) <= 1.
Proof.
  intros ops s rs a G R. destruct (C42_callbacks ops G) as (s' & rs' & R' & H). rewrite R in R'. injection R' as <- <-. destruct (H a) as (q & T & _).
  split; [exact (trace_all a _ _ _ T)|exact (trace_ufn a _ _ _ T)].
Qed.
Print Assumptions C42_once.

(** No library stays open when nothing is listed and nothing is pending; every
    open library belongs to a listed loaded plugin or to a pending unload. *)
Theorem C42_libraries : forall ops s rs, guarded init ops -> run init ops = Some (s, rs) ->
  (forall h, In h (libs s) -> exists a p, getp s a = Some p /\ p_lib p = Some h /\ ((In a (plugins s) /\ is_loaded p) \/ In a (map u_addr (pend s)))) /\
  (forall p, In p (listed s) -> is_loaded p -> exists h, p_lib p = Some h /\ In h (libs s)) /\
  (plugins s = [] -> pend s = [] -> libs s = []).
Proof.
  intros ops s rs G R. destruct (guarded_ok ops init init_Good init_Safe G) as (s' & rs' & R' & SF & _). rewrite R in R'. injection R' as <- <-.
  assert (A : forall h, In h (libs s) -> exists a p, getp s a = Some p /\ p_lib p = Some h /\ ((In a (plugins s) /\ is_loaded p) \/ In a (map u_addr (pend s)))).
  { intros h Ih. destruct (sf_own _ _ SF h Ih) as (a & p & Ga & L). exists a, p. split; [exact Ga|]. split; [exact L|]. destruct (sf_held _ _ SF a p Ga) as [C|C]; [congruence|discriminate|exact C]. }
  split; [exact A|]. split.
  - intros p Ip LD. apply listed_in in Ip. destruct Ip as (a & Ia & Ga). pose proof (sf_run _ _ SF a p Ia Ga LD) as AP. pose proof (sf_api _ _ SF a p Ga AP) as LB. destruct (p_lib p) as [h|] eqn:L; [|congruence]. exists h. split; [reflexivity|]. exact (proj1 (sf_open _ _ SF a p h Ga L)).
  - intros P D. destruct (libs s) as [|h l] eqn:L; [reflexivity|]. exfalso. destruct (A h (or_introl eq_refl)) as (a & p & _ & _ & [[C _]|C]); [rewrite P in C|rewrite D in C]; destruct C.
Qed.
Print Assumptions C42_libraries.

(** ** Pause and Unpause *)
Definition others_same (id : Z) (s s' : st) : Prop :=
  forall a p, In a (plugins s) -> getp s a = Some p -> p_id p <> id -> exists p', getp s' a = Some p' /\ vw p' = vw p.
Lemma f1_others a s s' : Inv s -> In a (plugins s) -> frame1 a s s' -> forall p, getp s a = Some p -> others_same (p_id p) s s'.
Proof.
  intros I Ia F p G b r Ib R N. destruct (f1_get _ _ _ F b r Ib R) as (r' & R' & E1 & E2 & E3). exists r'. split; [exact R'|]. unfold vw. rewrite E1, E2, E3; [reflexivity|]. intros ->. apply N. congruence.
Qed.
Lemma same_f1 a s s' : same s s' -> frame1 a s s'.
Proof. intros F. apply frame_frame1, same_frame. exact F. Qed.

Definition calls_of (s s' : st) (a : nat) : list call := filter (fun c => match subject c with Some b => b =? a | None => false end) (skipn (length (log s)) (log s')).

Theorem C42_pause : forall s id c s' r, reachable s -> Pause s id c = Some (s', r) ->
  plugins s' = plugins s /\ others_same id s s' /\
  (r = true -> exists a p p', In a (plugins s) /\ getp s a = Some p /\ p_id p = id /\ p_status p = Some Running /\
                 getp s' a = Some p' /\ p_id p' = id /\ p_file p' = p_file p /\ p_status p' = Some Paused) /\
  (r = false -> forall a p, In a (plugins s) -> getp s a = Some p -> exists p', getp s' a = Some p' /\ vw p' = vw p) /\
  ((forall p, In p (listed s) -> p_id p = id -> p_status p <> Some Running) -> s' = s /\ r = false).
Proof.
  intros s id c s' r Rch E. destruct (reachable_Good s Rch) as (I & ST & FI). unfold Pause in E.
  destruct (find_id s (plugins s) id) as [o|] eqn:Fd; [|discriminate]. apply find_id_spec in Fd.
  assert (SELF : forall b p, In b (plugins s) -> getp s b = Some p -> exists p', getp s b = Some p' /\ vw p' = vw p) by eauto.
  assert (NOP : Some (s, false) = Some (s', r) -> plugins s' = plugins s /\ others_same id s s' /\
    (r = true -> exists a p p', In a (plugins s) /\ getp s a = Some p /\ p_id p = id /\ p_status p = Some Running /\ getp s' a = Some p' /\ p_id p' = id /\ p_file p' = p_file p /\ p_status p' = Some Paused) /\
    (r = false -> forall a p, In a (plugins s) -> getp s a = Some p -> exists p', getp s' a = Some p' /\ vw p' = vw p) /\
    ((forall p, In p (listed s) -> p_id p = id -> p_status p <> Some Running) -> s' = s /\ r = false)).
  { intros Q. injection Q as <- <-. split; [reflexivity|]. split; [intros b p Ib G _; eauto|]. split; [discriminate|]. split; [auto|auto]. }
  destruct o as [a|]; [|exact (NOP E)]. destruct Fd as (Ia & p & G & Eid). unfold _Pause in E. rewrite G in E. destruct (p_status p) as [x|] eqn:X; [|discriminate].
  destruct x; try exact (NOP E). destruct (p_api p) as [ap|]; [|exact (NOP E)]. clear NOP.
  destruct (call_plugin s a (CPause a (snd c)) (fst c)) as [s1|] eqn:K; [|discriminate]. apply call_plugin_same in K.
  assert (RUN : ~ (forall p, In p (listed s) -> p_id p = id -> p_status p <> Some Running)) by (intros C; apply (C p); [apply listed_in; eauto|exact Eid|exact X]).
  destruct (same_getp _ _ _ _ K G) as (p1 & G1 & C1). destruct (snd c).
  - rewrite G1 in E. set (s2 := setp (sh_pause true s1 (p_id p1)) a (Some (with_status Paused p1))) in *. assert (G2 : getp s2 a = Some (with_status Paused p1)) by (apply getp_setp_same; exact (getp_lt _ _ _ G1)).
    rewrite G2 in E. destruct (iter_plevent s2 OnPause _) as [s3|] eqn:It; [|discriminate]. injection E as <- <-. apply iter_same in It.
    assert (F2 : frame1 a s s2).
    { eapply frame1_trans; [apply same_f1; exact K|]. change s2 with (sh_pause true (setp s1 a (Some (with_status Paused p1))) (p_id p1)). eapply frame1_trans; [apply (with_status_frame1 a s1 p1 Paused G1)|]. apply frame_frame1. split; try reflexivity; eauto. }
    assert (F3 : frame1 a s s3) by (eapply frame1_trans; [exact F2|apply same_f1; exact It]).
    destruct (same_getp _ _ _ _ It G2) as (p3 & G3 & C3).
    split; [exact (f1_plugins _ _ _ F3)|]. split; [rewrite <- Eid; exact (f1_others a s s3 I Ia F3 p G)|]. split; [|split; [discriminate|intros C; contradiction]].
    intros _. exists a, p, p3. rewrite (core_status _ _ C3), (core_id _ _ C3). cbn [p_status p_id with_status]. rewrite (core_id _ _ C1).
    assert (p_file p3 = p_file p) by (destruct (f1_get _ _ _ F3 a p Ia G) as (p' & Gp & _ & Fp & _); congruence).
    split; [exact Ia|]. split; [exact G|]. split; [exact Eid|]. split; [exact X|]. split; [exact G3|]. split; [exact Eid|]. split; [assumption|reflexivity].
  - injection E as <- <-. pose proof (same_frame _ _ K) as F. split; [exact (fr_plugins _ _ F)|]. split; [intros b q Ib Gb _; exact (fr_get _ _ F b q Ib Gb)|]. split; [discriminate|]. split; [intros _ b q; apply (fr_get _ _ F)|intros C; contradiction].
Qed.
Print Assumptions C42_pause.

Theorem C42_unpause : forall s id c s' r, reachable s -> Unpause s id c = Some (s', r) ->
  plugins s' = plugins s /\ others_same id s s' /\
  (r = true -> exists a p p', In a (plugins s) /\ getp s a = Some p /\ p_id p = id /\ p_status p = Some Paused /\
                 getp s' a = Some p' /\ p_id p' = id /\ p_file p' = p_file p /\ p_status p' = Some Running) /\
  (r = false -> forall a p, In a (plugins s) -> getp s a = Some p -> exists p', getp s' a = Some p' /\ vw p' = vw p) /\
  ((forall p, In p (listed s) -> p_id p = id -> p_status p <> Some Paused) -> s' = s /\ r = false).
Proof.
  intros s id c s' r Rch E. destruct (reachable_Good s Rch) as (I & ST & FI). unfold Unpause in E.
  destruct (find_id s (plugins s) id) as [o|] eqn:Fd; [|discriminate]. apply find_id_spec in Fd.
  assert (NOP : Some (s, false) = Some (s', r) -> plugins s' = plugins s /\ others_same id s s' /\
    (r = true -> exists a p p', In a (plugins s) /\ getp s a = Some p /\ p_id p = id /\ p_status p = Some Paused /\ getp s' a = Some p' /\ p_id p' = id /\ p_file p' = p_file p /\ p_status p' = Some Running) /\
    (r = false -> forall a p, In a (plugins s) -> getp s a = Some p -> exists p', getp s' a = Some p' /\ vw p' = vw p) /\
    ((forall p, In p (listed s) -> p_id p = id -> p_status p <> Some Paused) -> s' = s /\ r = false)).
  { intros Q. injection Q as <- <-. split; [reflexivity|]. split; [intros b p Ib G _; eauto|]. split; [discriminate|]. split; [eauto|auto]. }
  destruct o as [a|]; [|exact (NOP E)]. destruct Fd as (Ia & p & G & Eid). unfold _Unpause in E. rewrite G in E. destruct (p_status p) as [x|] eqn:X; [|discriminate].
  destruct x; try exact (NOP E). destruct (p_api p) as [ap|]; [|exact (NOP E)]. clear NOP.
  destruct (call_plugin s a (CUnpause a (snd c)) (fst c)) as [s1|] eqn:K; [|discriminate]. apply call_plugin_same in K.
  assert (RUN : ~ (forall p, In p (listed s) -> p_id p = id -> p_status p <> Some Paused)) by (intros C; apply (C p); [apply listed_in; eauto|exact Eid|exact X]).
  destruct (same_getp _ _ _ _ K G) as (p1 & G1 & C1). destruct (snd c).
  - rewrite G1 in E. set (s2 := setp (sh_pause false s1 (p_id p1)) a (Some (with_status Running p1))) in *. assert (G2 : getp s2 a = Some (with_status Running p1)) by (apply getp_setp_same; exact (getp_lt _ _ _ G1)).
    rewrite G2 in E. destruct (iter_plevent s2 OnUnpause _) as [s3|] eqn:It; [|discriminate]. injection E as <- <-. apply iter_same in It.
    assert (F2 : frame1 a s s2).
    { eapply frame1_trans; [apply same_f1; exact K|]. change s2 with (sh_pause false (setp s1 a (Some (with_status Running p1))) (p_id p1)). eapply frame1_trans; [apply (with_status_frame1 a s1 p1 Running G1)|]. apply frame_frame1. split; try reflexivity; eauto. }
    assert (F3 : frame1 a s s3) by (eapply frame1_trans; [exact F2|apply same_f1; exact It]).
    destruct (same_getp _ _ _ _ It G2) as (p3 & G3 & C3).
    split; [exact (f1_plugins _ _ _ F3)|]. split; [rewrite <- Eid; exact (f1_others a s s3 I Ia F3 p G)|]. split; [|split; [discriminate|intros C; contradiction]].
    intros _. exists a, p, p3. rewrite (core_status _ _ C3), (core_id _ _ C3). cbn [p_status p_id with_status]. rewrite (core_id _ _ C1).
    assert (p_file p3 = p_file p) by (destruct (f1_get _ _ _ F3 a p Ia G) as (p' & Gp & _ & Fp & _); congruence).
    split; [exact Ia|]. split; [exact G|]. split; [exact Eid|]. split; [exact X|]. split; [exact G3|]. split; [exact Eid|]. split; [assumption|reflexivity].
  - injection E as <- <-. pose proof (same_frame _ _ K) as F. split; [exact (fr_plugins _ _ F)|]. split; [intros b q Ib Gb _; exact (fr_get _ _ F b q Ib Gb)|]. split; [discriminate|]. split; [intros _ b q; apply (fr_get _ _ F)|intros C; contradiction].
Qed.
Print Assumptions C42_unpause.

(** ** Unload *)
Theorem C42_unload : forall s id force c s' r, reachable s -> Unload s id force c = Some (s', r) ->
  others_same id s s' /\
  (forall a, In a (plugins s') <-> In a (plugins s) /\ (r = true -> forall p, getp s a = Some p -> p_id p <> id)) /\
  (r = true -> forall p, In p (listed s') -> p_id p <> id) /\
  (r = false -> forall a p, In a (plugins s) -> getp s a = Some p -> exists p', getp s' a = Some p' /\ vw p' = vw p) /\
  (force = true -> r = true <-> In id (map p_id (listed s))).
Proof.
  intros s id force c s' r Rch E. destruct (reachable_Good s Rch) as (I & ST & FI). unfold Unload in E.
  destruct (find_id s (plugins s) id) as [o|] eqn:Fd; [|discriminate]. apply find_id_spec in Fd.
  destruct o as [a|].
  2:{ injection E as <- <-. split; [intros b p Ib G _; eauto|]. split; [intros b; split; [intros Ib; split; [exact Ib|discriminate]|intros [Ib _]; exact Ib]|]. split; [discriminate|]. split; [eauto|].
      intros _. split; [discriminate|]. intros C. apply in_map_iff in C. destruct C as (p & Ep & Ip). apply listed_in in Ip. destruct Ip as (b & Ib & Gb). exfalso. exact (Fd b p Ib Gb Ep). }
  destruct Fd as (Ia & p & G & Eid). rewrite G in E. destruct (_Unload s a force c) as [[s1 b]|] eqn:U; [|discriminate].
  destruct (_Unload_spec _ _ _ _ _ _ I Ia U) as (I1 & _ & _ & _ & P & K & _ & Bt).
  assert (S1 : same s1 s' /\ r = b).
  { destruct b; [|injection E as <- <-; split; [apply same_refl|reflexivity]]. destruct (iter_plevent s1 OnUnload (p_id p)) as [s2|] eqn:It; [|discriminate]. injection E as <- <-. apply iter_same in It. auto. }
  destruct S1 as [S1 ->]. pose proof (same_frame _ _ S1) as F.
  assert (PL : plugins s' = plugins s1) by exact (fr_plugins _ _ F).
  assert (K' : forall d q, In d (plugins s') -> getp s d = Some q -> exists q', getp s' d = Some q' /\ vw q' = vw q).
  { intros d q Id Gd. rewrite PL in Id. destruct (K d q Id Gd) as (q1 & G1 & V1). destruct (fr_get _ _ F d q1 Id G1) as (q2 & G2 & V2). exists q2. split; [exact G2|congruence]. }
  assert (MEM : forall d, In d (plugins s') <-> In d (plugins s) /\ (b = true -> d <> a)).
  { intros d. rewrite PL. destruct b; [destruct P as (l1 & l2 & P1 & P2)|rewrite P; split; [intros Id; split; [exact Id|discriminate]|intros [Id _]; exact Id]].
    pose proof (iv_nodup _ I) as ND. rewrite P1 in ND. destruct (NoDup_mid _ _ _ ND) as [_ NI]. rewrite P1, P2. split.
    - intros Id. split; [apply in_mid; exact Id|intros _ ->; contradiction].
    - intros [Id N]. apply (in_mid_ne l1 a l2); auto. }
  split; [|split; [|split; [|split]]].
  - intros d q Id Gd N. apply (K' d q); [|exact Gd]. apply MEM. split; [exact Id|]. intros _ ->. apply N. congruence.
  - intros d. rewrite MEM. split.
    + intros [Id N]. split; [exact Id|]. intros B q Gd Eq. apply (N B). apply (iv_ids _ I d a q p); auto. congruence.
    + intros [Id N]. split; [exact Id|]. intros B ->. exact (N B p G Eid).
  - intros -> q Iq Eq. apply listed_in in Iq. destruct Iq as (d & Id & Gd). pose proof Id as Id'. apply MEM in Id'. destruct Id' as [Id0 N]. destruct (iv_get _ I d Id0) as (q0 & G0). destruct (K' d q0 Id G0) as (q1 & G1 & V1). assert (q1 = q) by congruence. subst q1.
    apply (N eq_refl). apply (iv_ids _ I d a q0 p); auto. rewrite <- (vw_id _ _ V1). congruence.
  - intros -> d q Id Gd. apply (K' d q); [|exact Gd]. apply MEM. split; [exact Id|discriminate].
  - intros Fo. rewrite (Bt Fo). split; [|reflexivity]. intros _. apply in_map_iff. exists p. split; [exact Eid|]. apply listed_in. eauto.
Qed.
Print Assumptions C42_unload.

(** A plugin that is loaded can refuse an unload that is not forced, and only so. *)
Theorem C42_refusal : forall ops s rs id force c p, guarded init ops -> run init ops = Some (s, rs) -> In p (listed s) -> p_id p = id -> is_loaded p ->
  exists s', Unload s id force c = Some (s', snd c || force).
Proof.
  intros ops s rs id force c p G R Ip Eid LD. destruct (guarded_ok ops init init_Good init_Safe G) as (s0 & rs' & R' & SF & GS). rewrite R in R'. injection R' as <- <-. pose proof GS as (I & ST & _).
  apply listed_in in Ip. destruct Ip as (a & Ia & Ga).
  assert (AL : forall b q, In b (plugins s) -> getp s b = Some q -> p_id q = id -> ~ In b (pa s)).
  { intros b q Ib Gb Eb. assert (b = a) by (apply (iv_ids _ I b a q p); auto; congruence). subst b. exact (loaded_free _ _ _ SF Ia Ga LD). }
  destruct (Unload_ok s id force c GS SF AL) as (s1 & r & E & S1). exists s1. rewrite E. f_equal. f_equal.
  unfold Unload in E. destruct (find_id s (plugins s) id) as [o|] eqn:Fd; [|discriminate]. apply find_id_spec in Fd. destruct o as [b|]; [|exfalso; exact (Fd a p Ia Ga Eid)].
  destruct Fd as (Ib & q & Gb & Eb). assert (b = a) by (apply (iv_ids _ I b a q p); auto; congruence). subst b. rewrite Ga in E. unfold _Unload in E. rewrite Ga in E.
  pose proof (sf_run _ _ SF a p Ia Ga LD) as AP. pose proof (sf_api _ _ SF a p Ga AP) as LB. destruct (p_api p); [|congruence]. destruct (p_lib p); [|congruence].
  destruct (call_plugin _ _ _ _) as [s2|]; [|discriminate]. destruct (snd c || force); [|injection E as _ <-; reflexivity].
  destruct (getp s2 a) as [p2|]; [|discriminate]. destruct (unreg_all _ _) as [s3|]; [|discriminate]. destruct (erase_id _ _ _) as [l|]; [|discriminate]. destruct (sh_unload _ _ _ _) as [s4|]; [|discriminate].
  destruct (iter_plevent _ _ _); [|discriminate]. injection E as _ <-. reflexivity.
Qed.
Print Assumptions C42_refusal.

(** ** Histories without re-entrance: the guard is only about what the libraries do *)
Definition apis (o : op) : list nat :=
  match o with
  | OLoad _ _ li | ORetry _ li _ => (match li_api1 li with Some x => [x] | None => [] end) ++ (match li_api2 li with Some x => [x] | None => [] end)
  | _ => []
  end.
Fixpoint plain (used : list nat) (ops : list op) : Prop :=
  match ops with
  | [] => True
  | o :: ops =>
      (match o with
       | OEnter => False
       | OLoad _ _ li | ORetry _ li _ => no_unreg (fst (li_load li))
       | _ => True
       end) /\
      (forall x, In x (apis o) -> ~ In x used) /\ plain (apis o ++ used) ops
  end.
Definition PU (U : list nat) (s : st) : Prop := depth s = 0 /\ pend s = [] /\ (forall a p x, getp s a = Some p -> p_api p = Some x -> In x U).
Lemma PU_same U s s' : same s s' -> PU U s -> PU U s'.
Proof.
  intros F (D & P & A). split; [rewrite <- (sm_depth _ _ F); exact D|]. split; [rewrite <- (sm_pend _ _ F); exact P|]. intros a p x G E.
  destruct (same_getp _ _ _ _ (same_sym _ _ F) G) as (p0 & G0 & C). apply (A a p0 x G0). rewrite (core_api _ _ C). exact E.
Qed.
Lemma PU_setp U s a q : PU U s -> (forall p x, q = Some p -> p_api p = Some x -> In x U) -> PU U (setp s a q).
Proof.
  intros (D & P & A) Q. split; [exact D|]. split; [exact P|]. intros b p x G E. destruct (Nat.lt_ge_cases a (length (heap s))) as [LT|GE].
  - rewrite getp_setp in G by exact LT. destruct (b =? a); [exact (Q p x G E)|exact (A b p x G E)].
  - destruct (Nat.eq_dec b a) as [->|N]; [|rewrite getp_setp_other in G by congruence; exact (A b p x G E)]. exfalso. pose proof (getp_lt _ _ _ G) as L. unfold setp in L. cbn [heap set_heap] in L. rewrite setnth_length in L. lia.
Qed.
Lemma PU_eq U s s' : heap s' = heap s -> depth s' = depth s -> pend s' = pend s -> PU U s -> PU U s'.
Proof. intros H D P (D0 & P0 & A). split; [congruence|]. split; [congruence|]. intros a p x G. apply (A a). unfold getp in *. rewrite <- H. exact G. Qed.
Lemma PU_incl U V s : (forall x, In x U -> In x V) -> PU U s -> PU V s.
Proof. intros J (D & P & A). split; [exact D|]. split; [exact P|]. intros a p x G E. apply J. eauto. Qed.
Lemma PU_get U s a p x : PU U s -> getp s a = Some p -> p_api p = Some x -> In x U.
Proof. intros (_ & _ & A). apply A. Qed.
Lemma PU_ready U s a d s' : PU U s -> ready s a d = Some s' -> PU U s'.
Proof.
  intros H E. destruct (ready_spec _ _ _ _ E) as (p & G & Hh & _ & _ & _ & _ & Hp & Hd & _).
  apply (PU_eq U (setp s a (if d then None else Some (with_lib None (p_ver p) None (p_ufn p) p)))); [exact Hh|exact Hd|exact Hp|].
  apply PU_setp; [exact H|]. intros q x Q. destruct d; [discriminate|]. injection Q as <-. discriminate.
Qed.
Lemma PU_shu U s plug a d s' : PU U s -> sh_unload s plug a d = Some s' -> PU U s'.
Proof.
  intros H E. unfold sh_unload in E. cbn [depth set_hooks] in E. destruct H as (D & P & A) eqn:HH. rewrite D in E. cbn [Nat.eqb] in E. eapply PU_ready; [|exact E]. apply (PU_eq U s); try reflexivity. split; auto.
Qed.
Lemma PU_call U s a c acts s' : PU U s -> call_plugin s a c acts = Some s' -> PU U s'.
Proof. intros H E. apply call_plugin_same in E. exact (PU_same _ _ _ E H). Qed.
Lemma PU_iter U s k id s' : PU U s -> iter_plevent s k id = Some s' -> PU U s'.
Proof. intros H E. apply iter_same in E. exact (PU_same _ _ _ E H). Qed.
Lemma PU_upd U s a p q : PU U s -> getp s a = Some p -> p_api q = p_api p -> PU U (setp s a (Some q)).
Proof. intros H G E. apply PU_setp; [exact H|]. intros r x R. injection R as <-. rewrite E. exact (PU_get _ _ _ _ _ H G). Qed.
Lemma PU_load_lib U s a li s' : PU U s -> (forall x, li_api1 li = Some x \/ li_api2 li = Some x -> In x U) -> load_lib s a li = Some s' -> PU U s'.
Proof.
  intros H J E. unfold load_lib in E. destruct (getp _ a) as [p|] eqn:G; [|discriminate].
  set (s1 := set_nlib (S (nlib s)) (set_libs (libs s ++ [nlib s]) s)) in *. assert (H1 : PU U s1) by (apply (PU_eq U s); auto).
  set (api := match (if li_fnload li then li_api1 li else None) with Some _ => _ | None => _ end) in *.
  assert (AP : forall x, api = Some x -> In x U).
  { intros x Ex. apply J. unfold api in Ex. destruct (li_fnload li); [destruct (li_api1 li); [auto|]|]; (destruct (li_pfn li); [auto|discriminate]). }
  assert (ST1 : forall v l u x t, PU U (setp s1 a (Some (with_told t (with_lib api v l u p)))) /\ PU U (setp s1 a (Some (with_status x (with_lib api v l u p))))).
  { intros v l u x t. split; (apply PU_setp; [exact H1|]); intros q y Q; injection Q as <-; cbn [p_api with_told with_status with_lib]; apply AP. }
  destruct api as [ap|]; [|injection E as <-; exact (proj2 (ST1 _ _ _ _ None))].
  destruct ((li_ver li <? PLAPI_MIN_VERSION)%Z || (METAMOD_PLAPI_VERSION <? li_ver li)%Z); [injection E as <-; exact (proj2 (ST1 _ _ _ _ None))|].
  destruct (call_plugin _ a (CLoad _ _ _ _) _) as [s2|] eqn:K; [|discriminate]. eapply PU_call in K; [|exact (proj1 (ST1 _ _ _ Running _))].
  destruct (getp s2 a) as [p2|] eqn:G2; [|discriminate]. assert (W : forall x, PU U (setp s2 a (Some (with_status x p2)))) by (intros x; apply (PU_upd U s2 a p2); auto).
  destruct (snd (li_load li)); [|injection E as <-; apply W]. destruct (allloaded _); [eapply PU_call; [|exact E]; apply W|injection E as <-; apply W].
Qed.
Lemma PU_unreg_all U s a s' : PU U s -> unreg_all s a = Some s' -> PU U s'.
Proof. intros H E. apply unreg_all_same in E. exact (PU_same _ _ _ E H). Qed.
Lemma PU__Load U s file li s' a : PU U s -> (forall x, li_api1 li = Some x \/ li_api2 li = Some x -> In x U) -> _Load s file li = Some (s', a) -> PU U s'.
Proof.
  intros H J E. unfold _Load in E. fold (newp s file) in E. fold (added s file) in E. set (s1 := added s file) in *.
  assert (H1 : PU U s1).
  { destruct H as (D & P & A). split; [exact D|]. split; [exact P|]. intros b p x G. unfold s1 in G. rewrite added_get in G. destruct (b =? length (heap s)); [injection G as <-; discriminate|exact (A b p x G)]. }
  set (e := if ends_with file so_ext && li_exists li then _ else _) in *.
  assert (H2 : forall s2, e = Some s2 -> PU U s2).
  { intros s2. unfold e. assert (N : forall x, PU U (setp s1 (length (heap s)) (Some (with_status x (newp s file))))) by (intros x; apply PU_setp; [exact H1|]; intros q y Q; injection Q as <-; discriminate).
    destruct (ends_with file so_ext && li_exists li); [destruct (li_dl li)|]; intros Q; [|injection Q as <-; apply N|injection Q as <-; apply N]. eapply PU_load_lib; eassumption. }
  destruct e as [s2|]; [|discriminate]. specialize (H2 s2 eq_refl). destruct (getp s2 _) as [p|] eqn:G; [|discriminate]. destruct (p_status p); [|discriminate].
  destruct (_ && _); [|injection E as <- _; exact H2]. destruct (unreg_all _ _) as [s3|] eqn:R; [|discriminate]. destruct (sh_unload s3 _ _ _) as [s4|] eqn:SU; [|discriminate]. injection E as <- _.
  eapply PU_shu; [|exact SU]. eapply PU_unreg_all; [|exact R]. apply (PU_upd U s2 _ p); auto.
Qed.
Lemma PU__Unload U s a force c s' r : PU U s -> _Unload s a force c = Some (s', r) -> PU U s'.
Proof.
  intros H E. unfold _Unload in E. destruct (getp s a) as [p|] eqn:G; [|discriminate].
  assert (N : forall l, Some (setp (set_plugins l s) a None, true) = Some (s', r) -> PU U s').
  { intros l Q. injection Q as <- _. apply PU_setp; [apply (PU_eq U s); auto|discriminate]. }
  destruct (p_api p); [destruct (p_lib p)|]; try (destruct (erase_id _ _ _) as [l|]; [exact (N l E)|discriminate]). clear N.
  destruct (call_plugin _ _ _ _) as [s1|] eqn:K; [|discriminate]. eapply PU_call in K; [|exact H]. destruct (snd c || force); [|injection E as <- _; exact K].
  destruct (getp s1 a) as [p1|] eqn:G1; [|discriminate]. destruct (unreg_all _ _) as [s2|] eqn:R; [|discriminate]. destruct (erase_id _ _ _) as [l|]; [|discriminate]. destruct (sh_unload _ _ _ _) as [s4|] eqn:SU; [|discriminate]. injection E as <- _.
  eapply PU_shu; [|exact SU]. apply (PU_eq U s2); try reflexivity. eapply PU_unreg_all; [|exact R]. apply (PU_upd U s1 _ p1); auto.
Qed.
Lemma PU_UnloadAll U cs : forall fuel s s' b, PU U s -> UnloadAll fuel s cs = Some (Some (s', b)) -> PU U s'.
Proof.
  induction fuel as [|f IH]; intros s s' b H E; cbn [UnloadAll] in E; destruct (plugins s) as [|a l]; try discriminate; try (injection E as <- _; exact H).
  destruct (_Unload s a true (cs a)) as [[s1 r]|] eqn:K; [|discriminate]. eapply PU__Unload in K; [|exact H]. destruct (UnloadAll f s1 cs) as [[[s2 b2]|]|] eqn:L; try discriminate. injection E as <- _. exact (IH _ _ _ K L).
Qed.
Lemma PU_step U s o s' r : (o <> OEnter) -> PU U s -> step s o = Some (s', r) -> PU (apis o ++ U) s'.
Proof.
  intros NE H0 E. assert (H : PU (apis o ++ U) s) by (apply (PU_incl U); [intros x Ix; apply in_or_app; auto|exact H0]).
  assert (AP : forall x li, apis o = (match li_api1 li with Some x => [x] | None => [] end) ++ (match li_api2 li with Some x => [x] | None => [] end) -> li_api1 li = Some x \/ li_api2 li = Some x -> In x (apis o ++ U)).
  { intros x li -> [-> | ->]; apply in_or_app; left; apply in_or_app; [left|right]; left; reflexivity. }
  set (V := apis o ++ U) in *. destruct o; cbn [step] in E.
  - unfold Load in E. destruct (load_scan _ _ _) as [[[l al] e]|]; [|discriminate]. assert (H1 : PU V (set_plugins l s)) by (apply (PU_eq V s); auto). destruct e; [injection E as <- _; exact H1|].
    destruct (_Load _ _ _) as [[s1 a]|] eqn:L; [|discriminate]. eapply PU__Load in L; [|exact H1|intros x; apply AP; reflexivity]. destruct (getp s1 a); [|discriminate]. destruct (iter_plevent _ _ _) as [s2|] eqn:It; [|discriminate]. injection E as <- _. eapply PU_iter; eassumption.
  - unfold Unload in E. destruct (find_id _ _ _) as [[a|]|]; try discriminate; [|injection E as <- _; exact H]. destruct (getp s a); [|discriminate]. destruct (_Unload _ _ _ _) as [[s1 b]|] eqn:K; [|discriminate]. eapply PU__Unload in K; [|exact H].
    destruct b; [|injection E as <- _; exact K]. destruct (iter_plevent _ _ _) as [s2|] eqn:It; [|discriminate]. injection E as <- _. eapply PU_iter; eassumption.
  - unfold Pause, _Pause in E. destruct (find_id _ _ _) as [[a|]|]; try discriminate; [|injection E as <- _; exact H]. destruct (getp s a); [|discriminate]. destruct (p_status p) as [x|]; [|discriminate]. destruct x; try (injection E as <- _; exact H). destruct (p_api p); [|injection E as <- _; exact H].
    destruct (call_plugin _ _ _ _) as [s1|] eqn:K; [|discriminate]. eapply PU_call in K; [|exact H]. destruct (snd c); [|injection E as <- _; exact K]. destruct (getp s1 a) as [p1|] eqn:G1; [|discriminate]. destruct (getp (setp _ a _) a); [|discriminate]. destruct (iter_plevent _ _ _) as [s2|] eqn:It; [|discriminate]. injection E as <- _. eapply PU_iter; [|exact It]. apply (PU_upd V _ a p1); auto.
  - unfold Unpause, _Unpause in E. destruct (find_id _ _ _) as [[a|]|]; try discriminate; [|injection E as <- _; exact H]. destruct (getp s a); [|discriminate]. destruct (p_status p) as [x|]; [|discriminate]. destruct x; try (injection E as <- _; exact H). destruct (p_api p); [|injection E as <- _; exact H].
    destruct (call_plugin _ _ _ _) as [s1|] eqn:K; [|discriminate]. eapply PU_call in K; [|exact H]. destruct (snd c); [|injection E as <- _; exact K]. destruct (getp s1 a) as [p1|] eqn:G1; [|discriminate]. destruct (getp (setp _ a _) a); [|discriminate]. destruct (iter_plevent _ _ _) as [s2|] eqn:It; [|discriminate]. injection E as <- _. eapply PU_iter; [|exact It]. apply (PU_upd V _ a p1); auto.
  - unfold Retry in E. destruct (find_id _ _ _) as [[a|]|]; try discriminate; [|injection E as <- _; exact H]. destruct (getp s a) as [p|]; [|discriminate]. destruct (p_status p) as [x|]; [|discriminate]. destruct (loaded x); [injection E as <- _; exact H|].
    destruct (_Load _ _ _) as [[s1 b]|] eqn:L; [|discriminate]. eapply PU__Load in L; [|exact H|intros y; apply AP; reflexivity]. destruct (getp s1 b) as [q|]; [|discriminate]. destruct (p_status q) as [y|]; [|discriminate]. destruct (loaded y).
    + destruct (_Unload _ _ _ _) as [[s2 b2]|] eqn:K; [|discriminate]. eapply PU__Unload in K; [|exact L]. destruct (getp s2 b) as [q2|] eqn:G2; [|discriminate]. injection E as <- _. apply (PU_eq V (setp s2 b (Some (with_id id q2)))); try reflexivity. apply (PU_upd V _ b q2); auto.
    + destruct (_Unload _ _ _ _) as [[s2 b2]|] eqn:K; [|discriminate]. eapply PU__Unload in K; [|exact L]. injection E as <- _. apply (PU_eq V s2); auto.
  - destruct (UnloadAll _ _ _) as [[[s1 b]|]|] eqn:K; try discriminate. injection E as <- _. eapply PU_UnloadAll; eassumption.
  - unfold SetAllLoaded in E. destruct (allloaded s); [injection E as <- _; exact H|]. destruct (all_loop _ _ _) as [s1|] eqn:K; [|discriminate]. injection E as <- _. apply all_loop_same in K. eapply PU_same; [exact K|]. apply (PU_eq V s); auto.
  - destruct (existsb _ _); [|injection E as <- _; exact H]. destruct (getp s a); [|discriminate]. destruct (p_status p) as [x|]; [|discriminate]. destruct (loaded x); [|injection E as <- _; exact H]. destruct (run_acts _ _ _) as [s1|] eqn:K; [|discriminate]. injection E as <- _. apply run_acts_same in K. eapply PU_same; eassumption.
  - congruence.
  - destruct H as (D & P & A). rewrite D in E. injection E as <- _. split; auto.
  - unfold resolve_pending in E. destruct H as (D & P & A). rewrite P in E. cbn [resolve fst snd] in E. injection E as <- _. split; auto.
Qed.
Lemma plain_guarded : forall ops U s, PU U s -> plain U ops -> guarded s ops.
Proof.
  induction ops as [|o ops IH]; intros U s H P; cbn [guarded]; [exact I|]. cbn [plain] in P. destruct P as (PO & FR & PL).
  assert (NE : o <> OEnter) by (intros ->; exact PO).
  split; [|intros s' r E; apply (IH (apis o ++ U)); [exact (PU_step U s o s' r NE H E)|exact PL]].
  destruct H as (D & P & A). assert (NP : forall a, not_pending s a) by (intros a; unfold not_pending; rewrite P; intros []).
  assert (AF : forall li, (forall x, li_api1 li = Some x \/ li_api2 li = Some x -> In x (apis o)) -> api_fresh s li).
  { intros li J x p Ex Ip C. apply listed_in in Ip. destruct Ip as (a & _ & Ga). exact (FR x (J x Ex) (A a p x Ga C)). }
  destruct o; cbn [allowed]; auto.
  - split; [exact PO|]. apply AF. intros x [E|E]; cbn [apis]; rewrite E; apply in_or_app; [left|right]; left; reflexivity.
  - split; [exact PO|]. split; [|split; [exact D|auto]]. apply AF. intros x [E|E]; cbn [apis]; rewrite E; apply in_or_app; [left|right]; left; reflexivity.
Qed.
(** When no operation happens while a hooked function is running, no library
    answers with an interface pointer used before, and no Load callback
    unregisters a variable, all of the above holds without further conditions. *)
Theorem C42_plain : forall ops, plain [] ops -> guarded init ops.
Proof.
  intros ops. apply plain_guarded. split; [reflexivity|]. split; [reflexivity|]. intros a p x G. exfalso. unfold getp in G. cbn in G. destruct a; discriminate.
Qed.
Print Assumptions C42_plain.

(** Non-vacuity *)
Definition ok_ops : list op :=
  [OLoad (f_ "a.so") 0 (lib_ 10 [AHook 1; AReg 5; AListen 3] true); OLoad (f_ "b.so") 0 (lib_ 11 [AReg 6] false);
   OSetAllLoaded (fun _ => [AHook 2; AUnreg 5]); OPause 1 ([], false); OPause 1 ([], true); OUnload 1 false ([], false);
   ORetry 2 (lib_ 12 [] false) ([], true); ORetry 2 (lib_ 13 [] true) ([], true); OUnpause 1 ([AReg 9], true); OUnload 1 false ([], true);
   OUnloadAll (fun _ => ([], false))].
Example C42_plain_example : plain [] ok_ops.
Proof. cbn. unfold no_unreg. repeat split; intros; cbn in *; intuition (try discriminate; try lia). Qed.
Example C42_example : exists s rs, run init ok_ops = Some (s, rs) /\ libs s = [] /\ length (log s) > 8.
Proof. eexists _, _. split; [vm_compute; reflexivity|]. split; [reflexivity|]. vm_compute. lia. Qed.
(** ... and one with unloads that wait for a running hook *)
Example C42_deferred_example : exists s rs,
  guarded init [OLoad (f_ "a.so") 0 (lib_ 10 [AHook 1] true); OEnter; OUnload 1 true ([], false); OLeave] /\
  run init [OLoad (f_ "a.so") 0 (lib_ 10 [AHook 1] true); OEnter; OUnload 1 true ([], false); OLeave] = Some (s, rs) /\
  length (pend s) = 1 /\ length (libs s) = 1.
Proof.
  eexists _, _. split; [|split; [vm_compute; reflexivity|split; reflexivity]]. cbn [guarded]. split.
  { split; [intros c [C|[]]; discriminate|]. intros x p _ []. }
  intros s1 r1 E1. vm_compute in E1. injection E1 as <- <-. split; [exact I|]. intros s2 r2 E2. vm_compute in E2. injection E2 as <- <-. split.
  { intros a p _ _ _ []. }
  intros s3 r3 E3. split; [exact I|]. intros s4 r4 E4. exact I.
Qed.

(** ** What the guard excludes *)
(** A plugin that unregisters a variable in its Load callback makes the manager
    read its own uninitialised m_Status. *)
Theorem C42_unreg_in_load_refuted : exists li, (exists c, In (AUnreg c) (fst (li_load li))) /\ run init [OLoad (f_ "a.so") 0 li] = None.
Proof. exists (lib_ 10 [AReg 5; AUnreg 5] true). split; [exists 5; right; left; reflexivity|vm_compute; reflexivity]. Qed.
Print Assumptions C42_unreg_in_load_refuted.

(** A plugin refuses to load while a hooked function is running; its library is
    kept until the function has returned.  A forced unload in that time calls its
    Unload callback although it never was loaded, and afterwards its library is
    closed twice and the freed object is used. *)
Definition refused_ops : list op := [OEnter; OLoad (f_ "a.so") 0 (lib_ 10 [] false); OUnload 1 true ([], true)].
Theorem C42_refused_unload_refuted :
  (exists s rs, run init refused_ops = Some (s, rs) /\ trace 0 PNew (log s) = None /\ In (CUnload 0 true true) (log s) /\ ~ (exists b c, In (CLoad 0 b c true) (log s))) /\
  run init (refused_ops ++ [OLeave; OEnter; OLeave]) = None.
Proof.
  split; [|vm_compute; reflexivity]. eexists _, _. split; [vm_compute; reflexivity|]. split; [reflexivity|]. split; [right; left; reflexivity|].
  intros (b & c & [C|[C|[]]]); discriminate.
Qed.
Print Assumptions C42_refused_unload_refuted.

(** The same happens without any request to unload when a Retry fails there. *)
Theorem C42_retry_refuted :
  run init [OLoad (f_ "a.so") 0 (lib_ 10 [] false); OEnter; ORetry 1 (lib_ 11 [] false) ([], true); OLeave; OEnter; OLeave] = None /\
  exists s rs, run init [OLoad (f_ "a.so") 0 (lib_ 10 [] false); OEnter; ORetry 1 (lib_ 11 [] false) ([], true)] = Some (s, rs) /\
    In (CUnload 1 true true) (log s) /\ ~ (exists b c, In (CLoad 1 b c true) (log s)).
Proof.
  split; [vm_compute; reflexivity|]. eexists _, _. split; [vm_compute; reflexivity|]. split; [cbn; auto|]. intros (b & c & C). cbn in C. intuition discriminate.
Qed.
Print Assumptions C42_retry_refuted.
