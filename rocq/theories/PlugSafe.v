(** Memory safety of the plugin manager and the calls plugins receive. *)
From Coq Require Import List ZArith Bool Arith Ascii Lia.
From Verif Require Import Base ListModel StrModel StrSpec StrProofs PlugModel PlugSpec PlugProofs PlugRun.
Import ListNotations.
Local Open Scope list_scope.
Local Open Scope nat_scope.
Notation length := List.length.

Definition pa (s : st) : list nat := map u_addr (pend s).
Definition tr (a : nat) (s : st) : option phase := trace a PNew (log s).
Definition dying (q : phase) : Prop := q = PNew \/ q = PRefused \/ q = PDead.
Definition seen (q : phase) : Prop := q = PRun true \/ q = PPaused true.

(** [X]: the plugin that is being called or set up right now. *)
Record SafeX (X : option nat) (s : st) : Prop := mkSafe {
  sf_open : forall a p h, getp s a = Some p -> p_lib p = Some h -> In h (libs s) /\ h < nlib s;
  sf_uniq : forall a b p q h, getp s a = Some p -> getp s b = Some q -> p_lib p = Some h -> p_lib q = Some h -> a = b;
  sf_ufn : forall a p h h', getp s a = Some p -> p_ufn p = Some h -> p_lib p = Some h' -> h = h';
  sf_api : forall a p, getp s a = Some p -> p_api p <> None -> p_lib p <> None;
  sf_run : forall a p, In a (plugins s) -> getp s a = Some p -> is_loaded p -> p_api p <> None;
  sf_apis : forall a b p q x, In a (plugins s) -> In b (plugins s) -> getp s a = Some p -> getp s b = Some q -> p_api p = Some x -> p_api q = Some x -> a = b;
  sf_ev : forall a p e, getp s a = Some p -> In e (p_events p) -> p_lib p = Some (fst e);
  sf_held : forall a p, getp s a = Some p -> p_lib p <> None -> X = Some a \/ (In a (plugins s) /\ is_loaded p) \/ In a (pa s);
  sf_pend : forall a, In a (pa s) -> exists p, getp s a = Some p /\ p_lib p <> None /\ p_events p = [] /\ ~ (In a (plugins s) /\ is_loaded p);
  sf_pnd : NoDup (pa s);
  sf_x : forall a, X = Some a -> ~ In a (pa s);
  sf_own : forall h, In h (libs s) -> exists a p, getp s a = Some p /\ p_lib p = Some h;
  sf_life : forall a, exists q, tr a s = Some q /\ (length (heap s) <= a -> q = PNew) /\
     (forall p, X <> Some a -> In a (plugins s) -> getp s a = Some p -> p_status p = Some Running -> exists b, q = PRun b) /\
     (forall p, X <> Some a -> In a (plugins s) -> getp s a = Some p -> p_status p = Some Paused -> exists b, q = PPaused b) /\
     (In a (pa s) -> dying q) /\ (allloaded s = false -> ~ seen q)
}.

(** ** Logs *)
Definition mute (s s' : st) : Prop := exists l, log s' = log s ++ l /\ (forall c, In c l -> subject c = None).
Lemma mute_eq s s' : log s' = log s -> mute s s'.
Proof. intros E. exists []. rewrite app_nil_r. split; [exact E|intros c []]. Qed.
Lemma mute_trans s1 s2 s3 : mute s1 s2 -> mute s2 s3 -> mute s1 s3.
Proof. intros (l1 & E1 & N1) (l2 & E2 & N2). exists (l1 ++ l2). rewrite E2, E1, app_assoc. split; [reflexivity|]. intros c I. apply in_app_or in I. destruct I; auto. Qed.
Lemma trace_app a : forall l1 q l2, trace a q (l1 ++ l2) = match trace a q l1 with Some q => trace a q l2 | None => None end.
Proof. induction l1 as [|c l1 IH]; intros q l2; cbn [trace app]; [reflexivity|]. destruct (subject c) as [b|]; [|apply IH]. destruct (a =? b); [|apply IH]. destruct (next q c); [apply IH|reflexivity]. Qed.
Lemma trace_mute a l : forall q, (forall c, In c l -> subject c = None) -> trace a q l = Some q.
Proof. induction l as [|c l IH]; intros q N; cbn [trace]; [reflexivity|]. rewrite (N c (or_introl eq_refl)). apply IH. intros d I. apply N. right. exact I. Qed.
Lemma tr_mute a s s' : mute s s' -> tr a s' = tr a s.
Proof. intros (l & E & N). unfold tr. rewrite E, trace_app. destruct (trace a PNew (log s)); [apply trace_mute; exact N|reflexivity]. Qed.
Lemma tr_say a b c s q : tr a s = Some q -> subject c = Some b -> tr a (say [c] s) = if a =? b then next q c else Some q.
Proof. intros T S. unfold tr in *. cbn [say log set_log]. rewrite trace_app, T. cbn [trace]. rewrite S. destruct (a =? b); [destruct (next q c); reflexivity|reflexivity]. Qed.

(** ** Steps that do not touch memory *)
Lemma SafeX_heap X s s' : heap s' = heap s -> plugins s' = plugins s -> pend s' = pend s -> libs s' = libs s -> nlib s' = nlib s ->
  allloaded s' = allloaded s -> mute s s' -> SafeX X s -> SafeX X s'.
Proof.
  intros H P Q L N A M S. assert (G : forall a, getp s' a = getp s a) by (intros a; unfold getp; rewrite H; reflexivity).
  assert (PA : pa s' = pa s) by (unfold pa; rewrite Q; reflexivity).
  destruct S. split.
  - intros a p h. rewrite G, L, N. eauto.
  - intros a b p q h. rewrite !G. eauto.
  - intros a p h h'. rewrite G. eauto.
  - intros a p. rewrite G. eauto.
  - intros a p. rewrite G, P. eauto.
  - intros a b p q x. rewrite !G, P. eauto.
  - intros a p e. rewrite G. eauto.
  - intros a p. rewrite G, P, PA. eauto.
  - intros a. rewrite G, P, PA. eauto.
  - rewrite PA. assumption.
  - intros a. rewrite PA. eauto.
  - intros h. rewrite L. intros J. destruct (sf_own0 h J) as (a & p & K). exists a, p. rewrite G. exact K.
  - intros a. rewrite (tr_mute a s s' M), H, P, PA, A, G. apply sf_life0.
Qed.
(** ... that change only the lists inside one plugin *)
Lemma SafeX_setp X s a p q : SafeX X s -> getp s a = Some p -> core q = core p ->
  (forall e, In e (p_events q) -> p_lib p = Some (fst e)) -> (In a (pa s) -> p_events q = []) -> SafeX X (setp s a (Some q)).
Proof.
  intros S G C EV EP. pose proof (getp_lt _ _ _ G) as L.
  assert (B : forall b r, getp (setp s a (Some q)) b = Some r -> exists r0, getp s b = Some r0 /\ core r = core r0).
  { intros b r. rewrite getp_setp by exact L. destruct (Nat.eqb_spec b a) as [->|N]; [|eauto]. intros E. injection E as <-. eauto. }
  assert (F : forall b r, getp s b = Some r -> exists r', getp (setp s a (Some q)) b = Some r' /\ core r' = core r).
  { intros b r. rewrite getp_setp by exact L. destruct (Nat.eqb_spec b a) as [->|N]; [|eauto]. intros E. assert (r = p) by congruence. subst. eauto. }
  assert (LD : forall x y, core x = core y -> (is_loaded x <-> is_loaded y)) by (intros x y E; unfold is_loaded; rewrite (core_status _ _ E); reflexivity).
  destruct S. split; cbn [plugins pend libs nlib allloaded setp set_heap].
  - intros b r h R. destruct (B b r R) as (r0 & R0 & E). rewrite (core_lib _ _ E). eauto.
  - intros b d r t h R T. destruct (B b r R) as (r0 & R0 & E). destruct (B d t T) as (t0 & T0 & E'). rewrite (core_lib _ _ E), (core_lib _ _ E'). eauto.
  - intros b r h h' R. destruct (B b r R) as (r0 & R0 & E). rewrite (core_lib _ _ E), (core_ufn _ _ E). eauto.
  - intros b r R. destruct (B b r R) as (r0 & R0 & E). rewrite (core_lib _ _ E), (core_api _ _ E). eauto.
  - intros b r Ib R. destruct (B b r R) as (r0 & R0 & E). rewrite (LD _ _ E), (core_api _ _ E). eauto.
  - intros b d r t x Ib Id R T. destruct (B b r R) as (r0 & R0 & E). destruct (B d t T) as (t0 & T0 & E'). rewrite (core_api _ _ E), (core_api _ _ E'). eauto.
  - intros b r e R. rewrite getp_setp in R by exact L. destruct (Nat.eqb_spec b a) as [->|N]; [|eauto]. injection R as <-. rewrite (core_lib _ _ C). apply EV.
  - intros b r R. destruct (B b r R) as (r0 & R0 & E). rewrite (core_lib _ _ E), (LD _ _ E). eauto.
  - intros b Ib. change (pa (setp s a (Some q))) with (pa s) in Ib. destruct (sf_pend0 b Ib) as (r & R & R1 & R2 & R3). destruct (F b r R) as (r' & R' & E). exists r'. split; [exact R'|]. rewrite (core_lib _ _ E), (LD _ _ E). split; [exact R1|]. split; [|exact R3].
    rewrite getp_setp in R' by exact L. destruct (Nat.eqb_spec b a) as [->|N]; [|congruence]. injection R' as <-. exact (EP Ib).
  - assumption.
  - assumption.
  - intros h Ih. destruct (sf_own0 h Ih) as (b & r & R & E). destruct (F b r R) as (r' & R' & E'). exists b, r'. rewrite (core_lib _ _ E'). auto.
  - intros b. destruct (sf_life0 b) as (x & T & L1 & L2 & L3 & L4 & L5). exists x. split; [exact T|]. cbn [heap setp set_heap]. rewrite setnth_length. split; [exact L1|]. split; [|split; [|split; assumption]].
    + intros r NX Ib R. destruct (B b r R) as (r0 & R0 & E). rewrite (core_status _ _ E). eauto.
    + intros r NX Ib R. destruct (B b r R) as (r0 & R0 & E). rewrite (core_status _ _ E). eauto.
Qed.

(** ** Listeners *)
Lemma is_open_in s h : is_open s h = true <-> In h (libs s).
Proof. unfold is_open. rewrite existsb_exists. split; [intros (x & I & E); apply Nat.eqb_eq in E; subst; exact I|]. intros I. exists h. split; [exact I|apply Nat.eqb_refl]. Qed.
Lemma gather_ok s sel : forall l, (forall a, In a l -> exists p b, getp s a = Some p /\ sel p = Some b) ->
  exists ls, gather s sel l = Some ls /\ (forall e, In e ls -> exists a p, In a l /\ getp s a = Some p /\ In e (p_events p)).
Proof.
  induction l as [|a l IH]; intros T; cbn [gather]; [exists []; split; [reflexivity|intros e []]|].
  destruct (T a (or_introl eq_refl)) as (p & b & G & E). rewrite G, E. destruct IH as (ls & -> & N); [intros c I; apply T; right; exact I|]. eexists. split; [reflexivity|].
  intros e I. apply in_app_or in I. destruct I as [I|I].
  - destruct b; [|destruct I]. exists a, p. split; [left; reflexivity|auto].
  - destruct (N e I) as (c & q & Ic & Q). exists c, q. split; [right; exact Ic|exact Q].
Qed.
Lemma call_all_ok X s sel mk : SafeX X s -> (forall a, In a (plugins s) -> exists p b, getp s a = Some p /\ sel p = Some b) ->
  exists ls, call_all s sel mk = Some (say (map mk ls) s).
Proof.
  intros S T. unfold call_all. destruct (gather_ok s sel (plugins s) T) as (ls & -> & N). exists ls.
  assert (O : forallb (fun l => is_open s (fst l)) ls = true).
  { apply forallb_forall. intros e I. destruct (N e I) as (a & p & _ & G & J). apply is_open_in. exact (proj1 (sf_open _ _ S a p _ G (sf_ev _ _ S a p e G J))). }
  rewrite O. reflexivity.
Qed.
Lemma mute_say s l : (forall c, In c l -> subject c = None) -> mute s (say l s).
Proof. intros N. exists l. split; [reflexivity|exact N]. Qed.
Lemma SafeX_say X s l : (forall c, In c l -> subject c = None) -> SafeX X s -> SafeX X (say l s).
Proof. intros N. apply SafeX_heap; try reflexivity. apply mute_say. exact N. Qed.
Lemma iter_ok X s k id : Inv s -> SafeX X s -> exists s', iter_plevent s k id = Some s' /\ SafeX X s' /\ mute s s'.
Proof.
  intros I S. unfold iter_plevent. edestruct (call_all_ok X s) as (ls & E); [exact S| |].
  2:{ rewrite E. eexists. split; [reflexivity|]. assert (N : forall c, In c (map (fun l => CNote l k id) ls) -> subject c = None) by (intros c J; apply in_map_iff in J; destruct J as (l & <- & _); reflexivity).
      split; [apply SafeX_say; assumption|apply mute_say; exact N]. }
  intros a Ia. destruct (iv_get _ I a Ia) as (p & G). eauto.
Qed.
Lemma callable_ok X s a p : SafeX X s -> getp s a = Some p -> p_api p <> None -> callable s p = true.
Proof.
  intros S G A. unfold callable. pose proof (sf_api _ _ S a p G A) as LB. destruct (p_api p); [|congruence]. destruct (p_lib p) as [h|] eqn:L; [|congruence]. apply is_open_in. exact (proj1 (sf_open _ _ S a p h G L)).
Qed.
Lemma unregister_ok X s id c : Inv s -> St s -> SafeX X s -> exists s', unregister s id c = Some s' /\ SafeX X s' /\ mute s s' /\ heap s' = heap s.
Proof.
  intros I T S. unfold unregister. edestruct (call_all_ok X s) as (ls & E); [exact S| |].
  2:{ rewrite E. eexists. split; [reflexivity|]. assert (N : forall d, In d (map (fun l => CUnlink l id c) ls) -> subject d = None) by (intros d J; apply in_map_iff in J; destruct J as (l & <- & _); reflexivity).
      split; [apply SafeX_say; assumption|split; [apply mute_say; exact N|reflexivity]]. }
  intros a Ia. destruct (iv_get _ I a Ia) as (p & G). exists p. specialize (T a p Ia G). destruct (p_status p) as [x|] eqn:E; [|congruence].
  destruct (negb (loaded x)) eqn:LX; [exists false; rewrite G; auto|]. rewrite (callable_ok X s a p S G); [eauto|]. apply (sf_run _ _ S a p Ia G). unfold is_loaded. rewrite E. destruct x; try discriminate; auto.
Qed.
Lemma unreg_list_ok X : forall cs s id, Inv s -> St s -> SafeX X s -> exists s', unreg_list s id cs = Some s' /\ SafeX X s' /\ mute s s' /\ heap s' = heap s.
Proof.
  induction cs as [|c cs IH]; intros s id I T S; cbn [unreg_list].
  - exists s. split; [reflexivity|]. split; [exact S|]. split; [apply mute_eq; reflexivity|reflexivity].
  - destruct (unregister_ok X s id c I T S) as (s1 & E & S1 & M1 & H1). rewrite E. apply unregister_same in E.
    destruct (IH s1 id) as (s2 & E2 & S2 & M2 & H2); [exact (Inv_frame _ _ (same_frame _ _ E) I)|exact (St_frame _ _ I (same_frame _ _ E) T)|exact S1|].
    exists s2. split; [exact E2|]. split; [exact S2|]. split; [eapply mute_trans; eassumption|congruence].
Qed.

Lemma getp_heap s s' a : heap s' = heap s -> getp s' a = getp s a.
Proof. intros E. unfold getp. rewrite E. reflexivity. Qed.
Lemma unreg_all_ok X s a p : Inv s -> St s -> SafeX X s -> getp s a = Some p ->
  exists s' p', unreg_all s a = Some s' /\ SafeX X s' /\ mute s s' /\ same s s' /\ getp s' a = Some p' /\ core p' = core p /\ p_events p' = p_events p.
Proof.
  intros I T S G. destruct (unreg_list_ok X (p_cons p) s (p_id p) I T S) as (s1 & E & S1 & M & H).
  assert (U : unreg_all s a = Some (setp s1 a (Some (with_cons [] p)))) by (unfold unreg_all; rewrite G, E, (getp_heap _ _ _ H), G; reflexivity).
  pose proof (unreg_all_same _ _ _ U) as SM. assert (G1 : getp s1 a = Some p) by (rewrite (getp_heap _ _ _ H); exact G).
  eexists _, (with_cons [] p). split; [exact U|]. split; [|split; [|split; [exact SM|split; [apply getp_setp_same; exact (getp_lt _ _ _ G1)|split; reflexivity]]]].
  - apply (SafeX_setp X s1 a p); auto.
    + cbn [p_events with_cons]. intros e J. exact (sf_ev _ _ S a p e G J).
    + intros J. cbn [p_events with_cons]. destruct (sf_pend _ _ S1 a J) as (p' & G' & _ & Z & _). assert (p' = p) by congruence. subst. exact Z.
  - eapply mute_trans; [exact M|]. apply mute_eq. reflexivity.
Qed.

(** ** What a plugin does *)
Lemma find_api_ok s x : forall l, (forall a, In a l -> exists p, getp s a = Some p) ->
  exists r, find_api s l x = Some r /\
    match r with
    | Some b => In b l /\ exists q, getp s b = Some q /\ p_api q = Some x
    | None => forall a p, In a l -> getp s a = Some p -> p_api p <> Some x
    end.
Proof.
  induction l as [|a l IH]; intros T; cbn [find_api]; [exists None; split; [reflexivity|intros a p []]|].
  destruct (T a (or_introl eq_refl)) as (p & G). rewrite G. unfold api_is. destruct (p_api p) as [y|] eqn:A.
  - destruct (Nat.eqb_spec y x) as [->|N].
    + exists (Some a). split; [reflexivity|]. split; [left; reflexivity|eauto].
    + destruct IH as (r & E & R); [intros b I; apply T; right; exact I|]. exists r. split; [exact E|]. destruct r as [b|]; [destruct R; split; [right; assumption|assumption]|].
      intros b q [<-|I] Q; [congruence|exact (R b q I Q)].
  - destruct IH as (r & E & R); [intros b I; apply T; right; exact I|]. exists r. split; [exact E|]. destruct r as [b|]; [destruct R; split; [right; assumption|assumption]|].
    intros b q [<-|I] Q; [congruence|exact (R b q I Q)].
Qed.
Lemma find_self X s a p x : Inv s -> SafeX X s -> In a (plugins s) -> getp s a = Some p -> p_api p = Some x -> find_api s (plugins s) x = Some (Some a).
Proof.
  intros I S Ia G A. destruct (find_api_ok s x (plugins s)) as (r & E & R); [apply I|]. rewrite E. destruct r as [b|]; [|exfalso; exact (R a p Ia G A)].
  destruct R as (Ib & q & Q & B). do 2 f_equal. exact (sf_apis _ _ S b a q p x Ib Ia Q G B A).
Qed.
Lemma run_act_ok X s a p x : Inv s -> SafeX X s -> In a (plugins s) -> getp s a = Some p -> p_api p <> None -> ~ In a (pa s) ->
  (St s \/ forall c, x <> AUnreg c) -> exists s', run_act a s x = Some s' /\ SafeX X s' /\ mute s s'.
Proof.
  intros I S Ia G A NP U. unfold run_act. rewrite G. pose proof (sf_api _ _ S a p G A) as LB. destruct (p_api p) as [api|] eqn:Ea; [|congruence]. destruct (p_lib p) as [lib|] eqn:El; [|congruence].
  assert (HK : forall l, SafeX X (set_hooks l s)) by (intros l; apply (SafeX_heap X s); auto; apply mute_eq; reflexivity).
  assert (F : find_api s (plugins s) api = Some (Some a)) by exact (find_self X s a p api I S Ia G Ea).
  assert (SET : forall q, core q = core p -> (forall e, In e (p_events q) -> p_lib p = Some (fst e)) -> SafeX X (setp s a (Some q))) by (intros q C EV; apply (SafeX_setp X s a p); auto; intros J; contradiction).
  destruct x; rewrite ?F, ?G.
  - eexists. split; [reflexivity|]. split; [apply HK|apply mute_eq; reflexivity].
  - eexists. split; [reflexivity|]. split; [apply HK|apply mute_eq; reflexivity].
  - eexists. split; [reflexivity|]. split; [|apply mute_eq; reflexivity]. apply SET; [reflexivity|]. cbn [p_events with_events]. intros e J. apply in_app_or in J. destruct J as [J|[<-|[]]]; [exact (sf_ev _ _ S a p e G J)|exact El].
  - eexists. split; [reflexivity|]. split; [|apply mute_eq; reflexivity]. apply SET; [reflexivity|]. cbn [p_events with_cons]. intros e J. exact (sf_ev _ _ S a p e G J).
  - destruct U as [T|U]; [|exfalso; exact (U c eq_refl)]. set (q := with_cons (remove_first c (p_cons p)) p).
    assert (SM : same s (setp s a (Some q))) by (eapply same_setp; [exact G|reflexivity]).
    destruct (unregister_ok X (setp s a (Some q)) (p_id p) c) as (s' & E & S' & M & _).
    + exact (Inv_frame _ _ (same_frame _ _ SM) I).
    + exact (St_frame _ _ I (same_frame _ _ SM) T).
    + apply SET; [reflexivity|]. cbn [p_events with_cons q]. intros e J. exact (sf_ev _ _ S a p e G J).
    + exists s'. split; [exact E|]. split; [exact S'|]. eapply mute_trans; [|exact M]. apply mute_eq. reflexivity.
Qed.
Lemma pa_same s s' : same s s' -> pa s' = pa s.
Proof. intros S. unfold pa. rewrite (sm_pend _ _ S). reflexivity. Qed.
Lemma run_acts_ok X a : forall acts s p, Inv s -> SafeX X s -> In a (plugins s) -> getp s a = Some p -> p_api p <> None -> ~ In a (pa s) ->
  (St s \/ no_unreg acts) -> exists s', run_acts a s acts = Some s' /\ SafeX X s' /\ mute s s' /\ same s s'.
Proof.
  induction acts as [|x acts IH]; intros s p I S Ia G A NP U; cbn [run_acts].
  - exists s. split; [reflexivity|]. split; [exact S|]. split; [apply mute_eq; reflexivity|apply same_refl].
  - destruct (run_act_ok X s a p x I S Ia G A NP) as (s1 & E & S1 & M1).
    { destruct U as [T|U]; [left; exact T|]. right. intros c ->. apply (U c). left. reflexivity. }
    rewrite E. pose proof (run_act_same _ _ _ _ E) as SM. destruct (same_getp _ _ _ _ SM G) as (p1 & G1 & C1).
    destruct (IH s1 p1) as (s2 & E2 & S2 & M2 & SM2).
    + exact (Inv_frame _ _ (same_frame _ _ SM) I).
    + exact S1.
    + rewrite <- (sm_plugins _ _ SM). exact Ia.
    + exact G1.
    + rewrite (core_api _ _ C1). exact A.
    + rewrite (pa_same _ _ SM). exact NP.
    + destruct U as [T|U]; [left; exact (St_frame _ _ I (same_frame _ _ SM) T)|]. right. intros c J. apply (U c). right. exact J.
    + exists s2. split; [exact E2|]. split; [exact S2|]. split; [eapply mute_trans; eassumption|eapply same_trans; eassumption].
Qed.

(** A plugin starts and stops being the one that is called. *)
Lemma enter_X s a : SafeX None s -> ~ In a (pa s) -> SafeX (Some a) s.
Proof.
  intros S N. destruct S. split; auto.
  - intros b p G L. destruct (sf_held0 b p G L) as [C|C]; [discriminate|right; exact C].
  - intros b E. injection E as <-. exact N.
  - intros b. destruct (sf_life0 b) as (q & T & L1 & L2 & L3 & L4 & L5). exists q. split; [exact T|]. split; [exact L1|]. split; [|split; [|split; assumption]].
    + intros p _. apply L2. discriminate.
    + intros p _. apply L3. discriminate.
Qed.
Lemma leave_X s a q : SafeX (Some a) s -> tr a s = Some q ->
  (forall p, getp s a = Some p -> p_lib p <> None -> (In a (plugins s) /\ is_loaded p) \/ In a (pa s)) ->
  (forall p, In a (plugins s) -> getp s a = Some p -> (p_status p = Some Running -> exists b, q = PRun b) /\ (p_status p = Some Paused -> exists b, q = PPaused b)) ->
  SafeX None s.
Proof.
  intros S T H K. destruct S. split; auto.
  - intros b p G L. destruct (sf_held0 b p G L) as [C|C]; [|right; exact C]. injection C as <-. right. exact (H p G L).
  - intros b E. discriminate.
  - intros b. destruct (sf_life0 b) as (q' & T' & L1 & L2 & L3 & L4 & L5). exists q'. split; [exact T'|]. split; [exact L1|]. destruct (Nat.eq_dec b a) as [->|N].
    + assert (q' = q) by congruence. subst q'. split; [intros p _ Ia G; apply (K p Ia G)|]. split; [intros p _ Ia G; apply (K p Ia G)|]. auto.
    + assert (N' : Some a <> Some b) by congruence. split; [intros p _; apply L2; exact N'|]. split; [intros p _; apply L3; exact N'|]. auto.
Qed.
Lemma say_ok s a c q q' : SafeX (Some a) s -> a < length (heap s) -> tr a s = Some q -> subject c = Some a -> next q c = Some q' -> (allloaded s = false -> ~ seen q') ->
  SafeX (Some a) (say [c] s) /\ tr a (say [c] s) = Some q'.
Proof.
  intros S LT T SC N AL. assert (TA : tr a (say [c] s) = Some q') by (rewrite (tr_say a a c s q T SC), Nat.eqb_refl; exact N). split; [|exact TA]. pose proof (sf_x _ _ S a eq_refl) as NP.
  destruct S. split; auto. intros b. destruct (Nat.eq_dec b a) as [->|NE].
  - exists q'. split; [exact TA|]. split; [cbn [heap say set_log]; lia|]. split; [congruence|]. split; [congruence|]. split; [intros J; contradiction|exact AL].
  - destruct (sf_life0 b) as (x & T' & L). exists x. split; [|exact L]. rewrite (tr_say b a c s x T' SC). apply Nat.eqb_neq in NE. rewrite NE. reflexivity.
Qed.
Lemma call_ok s a p c acts q q' : Inv s -> SafeX (Some a) s -> In a (plugins s) -> getp s a = Some p -> p_api p <> None -> tr a s = Some q -> subject c = Some a -> next q c = Some q' ->
  (allloaded s = false -> ~ seen q') -> (St s \/ no_unreg acts) ->
  exists s', call_plugin s a c acts = Some s' /\ SafeX (Some a) s' /\ tr a s' = Some q' /\ same s s'.
Proof.
  intros I S Ia G A T SC N AL U. unfold call_plugin. rewrite G, (callable_ok _ _ _ _ S G A). destruct (say_ok s a c q q' S (getp_lt _ _ _ G) T SC N AL) as [S1 T1].
  destruct (run_acts_ok (Some a) a acts (say [c] s) p) as (s' & E & S' & M & SM); auto.
  - exact (Inv_frame _ _ (same_frame _ _ (same_say [c] s)) I).
  - exact (sf_x _ _ S a eq_refl).
  - exists s'. split; [exact E|]. split; [exact S'|]. split; [rewrite (tr_mute _ _ _ M); exact T1|]. eapply same_trans; [apply same_say|exact SM].
Qed.

(** ** Closing a library *)
Lemma ready_ok s a d p q : SafeX (Some a) s -> getp s a = Some p -> p_lib p <> None -> p_events p = [] -> tr a s = Some q -> dying q ->
  (d = true -> ~ In a (plugins s)) -> ~ (In a (plugins s) /\ is_loaded p) ->
  exists s', ready s a d = Some s' /\ SafeX None s' /\ pend s' = pend s.
Proof.
  intros S G LB EV T D DU NL. pose proof (getp_lt _ _ _ G) as LT. destruct (p_lib p) as [h|] eqn:El; [|congruence]. destruct (sf_open _ _ S a p h G El) as [OP LN].
  assert (R : exists s', ready s a d = Some s').
  { unfold ready. rewrite G, El. destruct (p_ufn p) as [h1|] eqn:U.
    - assert (h1 = h) by exact (sf_ufn _ _ S a p h1 h G U El). subst h1. assert (is_open s h = true) as OO by (apply is_open_in; exact OP). rewrite OO. change (is_open (say [CUnloadFn a] s) h) with (is_open s h). rewrite OO. destruct d; eauto.
    - assert (is_open s h = true) as -> by (apply is_open_in; exact OP). destruct d; eauto. }
  destruct R as (s' & R). exists s'. split; [exact R|]. apply ready_spec in R. destruct R as (p' & G' & H1 & H2 & H3 & H4 & H5 & H6 & H7 & H8 & H9 & H10 & _). assert (p' = p) by congruence. subst p'. rewrite El in H9.
  split; [|exact H6].
  assert (GA : getp s' a = if d then None else Some (with_lib None (p_ver p) None (p_ufn p) p)) by (unfold getp; rewrite H1, nth_setnth_same by exact LT; destruct d; reflexivity).
  assert (GO : forall b, b <> a -> getp s' b = getp s b) by (intros b N; unfold getp; rewrite H1, nth_setnth_other by congruence; reflexivity).
  assert (B : forall b r, getp s' b = Some r -> (b = a /\ r = with_lib None (p_ver p) None (p_ufn p) p) \/ (b <> a /\ getp s b = Some r)).
  { intros b r R. destruct (Nat.eq_dec b a) as [->|N]; [left; split; [reflexivity|]; rewrite GA in R; destruct d; congruence|]. right. rewrite GO in R by exact N. auto. }
  assert (PA : pa s' = pa s) by (unfold pa; rewrite H6; reflexivity).
  pose proof (sf_x _ _ S a eq_refl) as NPA.
  split.
  - intros b r k R L. destruct (B b r R) as [[-> ->]|[N R0]]; [discriminate|]. destruct (sf_open _ _ S b r k R0 L) as [J1 J2]. rewrite H9, H8. split; [|exact J2]. apply filter_In. split; [exact J1|]. apply negb_true_iff, Nat.eqb_neq. intros ->. apply N. exact (sf_uniq _ _ S b a r p h R0 G L El).
  - intros b c r t k R T' L1 L2. destruct (B b r R) as [[-> ->]|[N R0]]; [discriminate|]. destruct (B c t T') as [[-> ->]|[N' T0]]; [discriminate|]. exact (sf_uniq _ _ S b c r t k R0 T0 L1 L2).
  - intros b r k k' R U L. destruct (B b r R) as [[-> ->]|[N R0]]; [discriminate|]. exact (sf_ufn _ _ S b r k k' R0 U L).
  - intros b r R A. destruct (B b r R) as [[-> ->]|[N R0]]; [cbn [p_api with_lib] in A; congruence|]. exact (sf_api _ _ S b r R0 A).
  - intros b r Ib R L. rewrite H2 in Ib. destruct (B b r R) as [[-> ->]|[N R0]]; [exfalso; apply NL; split; [exact Ib|exact L]|]. exact (sf_run _ _ S b r Ib R0 L).
  - intros b c r t x Ib Ic R T' A1 A2. rewrite H2 in Ib, Ic. destruct (B b r R) as [[-> ->]|[N R0]]; [discriminate|]. destruct (B c t T') as [[-> ->]|[N' T0]]; [discriminate|]. exact (sf_apis _ _ S b c r t x Ib Ic R0 T0 A1 A2).
  - intros b r e R E. destruct (B b r R) as [[-> ->]|[N R0]]; [cbn [p_events with_lib] in E; rewrite EV in E; destruct E|]. exact (sf_ev _ _ S b r e R0 E).
  - intros b r R L. destruct (B b r R) as [[-> ->]|[N R0]]; [cbn [p_lib with_lib] in L; congruence|]. rewrite H2, PA. destruct (sf_held _ _ S b r R0 L) as [C|C]; [injection C as C; congruence|]. right. exact C.
  - intros b Ib. rewrite PA in Ib. destruct (sf_pend _ _ S b Ib) as (r & R & Q). exists r. rewrite GO by (intros ->; contradiction). rewrite H2. auto.
  - rewrite PA. apply S.
  - intros b E. discriminate.
  - intros k Ik. rewrite H9 in Ik. apply filter_In in Ik. destruct Ik as [Ik Nk]. apply negb_true_iff, Nat.eqb_neq in Nk. destruct (sf_own _ _ S k Ik) as (b & r & R & L). exists b, r. rewrite GO; [auto|]. intros ->. congruence.
  - intros b. assert (LEN : length (heap s') = length (heap s)) by (rewrite H1, setnth_length; reflexivity).
    assert (TB : forall q0, tr b s = Some q0 -> tr b s' = if b =? a then match p_ufn p with Some _ => next q0 (CUnloadFn a) | None => Some q0 end else Some q0).
    { intros q0 T0. unfold tr in *. rewrite H10, trace_app, T0. destruct (p_ufn p); cbn [trace subject]; [|destruct (b =? a); reflexivity]. destruct (b =? a); [destruct (next q0 (CUnloadFn a)); reflexivity|reflexivity]. }
    destruct (Nat.eq_dec b a) as [->|N].
    + specialize (TB q T). rewrite Nat.eqb_refl in TB. assert (E : exists q1, tr a s' = Some q1 /\ (q1 = q \/ q1 = PGone)) by (destruct (p_ufn p); [destruct D as [-> | [-> | ->]]; cbn [next] in TB; eauto|eauto]). destruct E as (q1 & E & Q1). exists q1. split; [exact E|]. rewrite LEN, H2, PA. split; [lia|].
      split; [intros r _ Ib R St; destruct (B a r R) as [[_ ->]|[C _]]; [|congruence]; exfalso; apply NL; split; [exact Ib|left; exact St]|].
      split; [intros r _ Ib R St; destruct (B a r R) as [[_ ->]|[C _]]; [|congruence]; exfalso; apply NL; split; [exact Ib|right; exact St]|].
      split; [intros J; contradiction|]. intros _ SE. destruct Q1 as [->| ->]; destruct SE as [C|C]; try discriminate; destruct D as [-> | [-> | ->]]; discriminate.
    + destruct (sf_life _ _ S b) as (q0 & T0 & L1 & L2 & L3 & L4 & L5). specialize (TB q0 T0). apply Nat.eqb_neq in N as N2. rewrite N2 in TB. exists q0. rewrite LEN, H2, PA, H4, (GO b N). split; [exact TB|]. split; [exact L1|].
      assert (N' : Some a <> Some b) by congruence. split; [intros r _; apply L2; exact N'|]. split; [intros r _; apply L3; exact N'|]. auto.
Qed.
Lemma sh_unload_ok s plug a d p q : SafeX (Some a) s -> getp s a = Some p -> p_lib p <> None -> p_events p = [] -> tr a s = Some q -> dying q ->
  (d = true -> ~ In a (plugins s)) -> ~ (In a (plugins s) /\ is_loaded p) ->
  exists s', sh_unload s plug a d = Some s' /\ SafeX None s' /\ (if depth s =? 0 then pend s' = pend s else pend s' = pend s ++ [mkPend a d false]).
Proof.
  intros S G LB EV T D DU NL. unfold sh_unload. set (s1 := set_hooks (filter (fun k => negb (h_plug k =? plug)%Z) (hooks s)) s). change (depth s1) with (depth s).
  assert (S1 : SafeX (Some a) s1) by (apply (SafeX_heap (Some a) s); auto; apply mute_eq; reflexivity).
  destruct (depth s =? 0).
  - destruct (ready_ok s1 a d p q S1 G LB EV T D DU NL) as (s' & E & S' & P). exists s'. auto.
  - eexists. split; [reflexivity|]. split; [|reflexivity]. clear S1. pose proof (sf_x _ _ S a eq_refl) as NP.
    assert (PA : pa (set_pend (pend s1 ++ [mkPend a d false]) s1) = pa s ++ [a]) by (unfold pa; cbn [pend set_pend s1 set_hooks]; rewrite map_app; reflexivity).
    destruct S. split; auto.
    + intros b r R L. rewrite PA. destruct (sf_held0 b r R L) as [C|[C|C]]; [injection C as <-; right; right; apply in_or_app; right; left; reflexivity|right; left; exact C|right; right; apply in_or_app; left; exact C].
    + intros b Ib. rewrite PA in Ib. apply in_app_or in Ib. destruct Ib as [Ib|[<-|[]]]; [exact (sf_pend0 b Ib)|]. exists p. auto.
    + rewrite PA. apply NoDup_snoc; assumption.
    + intros b E. discriminate.
    + intros b. destruct (sf_life0 b) as (q0 & T0 & L1 & L2 & L3 & L4 & L5). exists q0. split; [exact T0|]. split; [exact L1|]. rewrite PA. destruct (Nat.eq_dec b a) as [->|N].
      * assert (q0 = q) by (unfold tr in *; congruence). subst q0. split; [intros r _ Ib R St; exfalso; apply NL; split; [exact Ib|left; change (getp s a = Some r) in R; congruence]|].
        split; [intros r _ Ib R St; exfalso; apply NL; split; [exact Ib|right; change (getp s a = Some r) in R; congruence]|]. split; [intros _; exact D|exact L5].
      * assert (N' : Some a <> Some b) by congruence. split; [intros r _; apply L2; exact N'|]. split; [intros r _; apply L3; exact N'|]. split; [|exact L5]. intros J. apply in_app_or in J. destruct J as [J|[J|[]]]; [exact (L4 J)|congruence].
Qed.
