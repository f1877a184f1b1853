(** C62: the console variables and commands of a plugin. *)
From Coq Require Import List ZArith Bool Arith Ascii String Lia.
From Verif Require Import Base ListModel StrModel StrSpec StrProofs PlugModel PlugSpec PlugProofs PlugRun PlugNote PlugProps.
Import ListNotations.
Local Open Scope list_scope.
Local Open Scope nat_scope.
Notation length := List.length.

(** ** Specification *)
(** How often the object [c] is registered after [acts], if it was [n] times before *)
Fixpoint registered (c : nat) (acts : list act) (n : nat) : nat :=
  match acts with
  | [] => n
  | AReg d :: acts => registered c acts (if d =? c then S n else n)
  | AUnreg d :: acts => registered c acts (if d =? c then n - 1 else n)
  | _ :: acts => registered c acts n
  end.
Definition owns (p : plugin) (c : nat) : nat := count_occ Nat.eq_dec (p_cons p) c.
(** Plugins whose listeners hear of unregistered objects ("Only valid for plugins >= 12") *)
Definition hears (p : plugin) : bool :=
  match p_status p with Some Running | Some Paused => (12 <=? p_ver p)%Z | _ => false end.
Definition hearers (s : st) : list listener := flat_map p_events (filter hears (listed s)).
(** every listener is told of every object *)
Definition unlinks (ls : list listener) (id : Z) (cs : list nat) : list call :=
  flat_map (fun c => map (fun l => CUnlink l id c) ls) cs.
(** no other plugin in the list has the interface of the plugin at [a] *)
Definition own_api (s : st) (a : nat) : Prop :=
  forall b p q, In b (plugins s) -> getp s a = Some p -> getp s b = Some q -> p_api q = p_api p -> b = a.

(** ** Notifications *)
Lemma gather_flat s sel (f : plugin -> bool) : (forall p b, sel p = Some b -> b = f p) -> forall l r, gather s sel l = Some r ->
  r = flat_map p_events (filter f (flat_map (fun a => match getp s a with Some p => [p] | None => [] end) l)).
Proof.
  intros Hf. induction l as [|a l IH]; intros r E; cbn [gather] in E; [injection E as <-; reflexivity|].
  destruct (getp s a) as [p|] eqn:G; [|discriminate]. destruct (sel p) as [b|] eqn:B; [|discriminate].
  destruct (gather s sel l) as [r1|]; [|discriminate]. injection E as <-. cbn [flat_map]. rewrite G. cbn [app filter].
  rewrite (Hf p b B). destruct (f p); cbn [flat_map app]; rewrite (IH r1 eq_refl); reflexivity.
Qed.
Lemma unregister_say s id c s' : unregister s id c = Some s' -> s' = say (map (fun l => CUnlink l id c) (hearers s)) s.
Proof.
  intros E. unfold unregister, call_all in E.
  match type of E with context [gather s ?f ?l] => destruct (gather s f l) as [ls|] eqn:G end; [|discriminate].
  match type of E with (if ?b then _ else _) = _ => destruct b end; [|discriminate]. injection E as <-.
  rewrite (gather_flat _ _ hears) with (2 := G); [reflexivity|].
  intros p b B. unfold hears. destruct (p_status p) as [x|]; [|discriminate]. cbn [option_map] in B.
  destruct x; cbn [loaded negb] in B; try (injection B as <-; reflexivity);
    (destruct (callable s p); [|discriminate]; injection B as <-; rewrite Z.leb_antisym; reflexivity).
Qed.
Lemma unreg_list_say cs : forall s id s', unreg_list s id cs = Some s' -> s' = say (unlinks (hearers s) id cs) s.
Proof.
  induction cs as [|c cs IH]; intros s id s' E; cbn [unreg_list] in E.
  - injection E as <-. unfold unlinks, say. cbn [flat_map]. rewrite app_nil_r. destruct s; reflexivity.
  - destruct (unregister s id c) as [s1|] eqn:U; [|discriminate]. apply unregister_say in U. apply IH in E. subst s1 s'.
    unfold unlinks, say. cbn [flat_map log set_log]. rewrite <- app_assoc. reflexivity.
Qed.

(** ** Registration *)
Lemma remove_first_count c d l : count_occ Nat.eq_dec (remove_first d l) c = if d =? c then count_occ Nat.eq_dec l c - 1 else count_occ Nat.eq_dec l c.
Proof.
  induction l as [|x l IH]; cbn [remove_first count_occ]; [destruct (d =? c); reflexivity|].
  destruct (Nat.eqb_spec x d) as [-> |N].
  - destruct (Nat.eqb_spec d c) as [-> |M]; destruct (Nat.eq_dec _ _); try congruence; lia.
  - cbn [count_occ]. destruct (Nat.eq_dec x c) as [-> |M]; [|exact IH]. rewrite IH. destruct (Nat.eqb_spec d c); [congruence|reflexivity].
Qed.
Lemma find_api_own s a p : In a (plugins s) -> getp s a = Some p -> own_api s a -> forall api, p_api p = Some api ->
  (forall b, In b (plugins s) -> exists q, getp s b = Some q) -> find_api s (plugins s) api = Some (Some a).
Proof.
  intros I G O api A T. unfold own_api in O. revert I O T. generalize (plugins s) as l.
  induction l as [|b l IH]; intros I O T; [destruct I|]. cbn [find_api]. destruct (T b (or_introl eq_refl)) as (q & Gb). rewrite Gb.
  unfold api_is. destruct (p_api q) as [x|] eqn:Q.
  - destruct (Nat.eqb_spec x api) as [-> |N].
    + rewrite (O b p q (or_introl eq_refl) G Gb); [reflexivity|congruence].
    + destruct I as [-> |I]; [congruence|]. apply IH; [exact I| |]; [intros c p1 q1 J; apply O; right; exact J|intros c J; apply T; right; exact J].
  - destruct I as [-> |I]; [congruence|]. apply IH; [exact I| |]; [intros c p1 q1 J; apply O; right; exact J|intros c J; apply T; right; exact J].
Qed.
Definition there (s : st) : Prop := forall b, In b (plugins s) -> exists q, getp s b = Some q.

(** one action: [keeps] what the next one needs *)
Lemma own_api_same s s' a : same s s' -> own_api s a -> own_api s' a.
Proof.
  intros S O b p q I G1 G2 E. destruct (same_getp _ _ _ _ (same_sym _ _ S) G1) as (p0 & G1' & C1). destruct (same_getp _ _ _ _ (same_sym _ _ S) G2) as (q0 & G2' & C2).
  apply (O b p0 q0); [|exact G1'|exact G2'|].
  - rewrite (sm_plugins _ _ S). exact I.
  - rewrite (core_api _ _ C1), (core_api _ _ C2). exact E.
Qed.
Lemma there_same s s' : same s s' -> there s -> there s'.
Proof.
  intros S T b I. assert (J : In b (plugins s)) by (rewrite (sm_plugins _ _ S); exact I).
  destruct (T b J) as (q & G). destruct (same_getp _ _ _ _ S G) as (q' & G' & _). eauto.
Qed.
Lemma getp_say c s a : getp (say c s) a = getp s a. Proof. reflexivity. Qed.
Lemma run_act_owns a s x s' p : In a (plugins s) -> there s -> own_api s a -> getp s a = Some p -> run_act a s x = Some s' ->
  exists p', getp s' a = Some p' /\ (forall c, owns p' c = registered c [x] (owns p c)) /\
    (forall b q, b <> a -> getp s b = Some q -> exists q', getp s' b = Some q' /\ p_cons q' = p_cons q).
Proof.
  intros I T O G E. unfold run_act in E. rewrite G in E. destruct (p_api p) as [api|] eqn:A; [|discriminate]. destruct (p_lib p) as [lib|]; [|discriminate].
  assert (LT := getp_lt _ _ _ G).
  destruct x; try rewrite (find_api_own _ _ _ I G O api A T) in E; try rewrite G in E.
  - injection E as <-. exists p. repeat split; eauto.
  - injection E as <-. exists p. repeat split; eauto.
  - injection E as <-. exists (with_events (p_events p ++ [(lib, l)]) p). rewrite getp_setp_same by exact LT. split; [reflexivity|].
    split; [reflexivity|]. intros b q N Gb. exists q. rewrite getp_setp_other by congruence. split; [exact Gb|reflexivity].
  - injection E as <-. exists (with_cons (p_cons p ++ [c]) p). rewrite getp_setp_same by exact LT. split; [reflexivity|].
    split; [|intros b q N Gb; exists q; rewrite getp_setp_other by congruence; split; [exact Gb|reflexivity]].
    intros d. unfold owns, with_cons. cbn [p_cons registered]. rewrite count_occ_app. cbn [count_occ].
    destruct (Nat.eq_dec c d) as [-> |N]; [rewrite Nat.eqb_refl; lia|]. destruct (Nat.eqb_spec c d); [congruence|lia].
  - apply unregister_say in E. subst s'. exists (with_cons (remove_first c (p_cons p)) p). rewrite getp_say, getp_setp_same by exact LT. split; [reflexivity|].
    split; [|intros b q N Gb; exists q; rewrite getp_say, getp_setp_other by congruence; split; [exact Gb|reflexivity]].
    intros d. unfold owns, with_cons. cbn [p_cons registered]. apply remove_first_count.
Qed.
Lemma registered_app c l1 : forall l2 n, registered c (l1 ++ l2) n = registered c l2 (registered c l1 n).
Proof. induction l1 as [|x l1 IH]; intros l2 n; [reflexivity|]. destruct x; cbn [app registered]; apply IH. Qed.
Lemma run_acts_owns a l : forall s s' p, In a (plugins s) -> there s -> own_api s a -> getp s a = Some p -> run_acts a s l = Some s' ->
  exists p', getp s' a = Some p' /\ (forall c, owns p' c = registered c l (owns p c)) /\
    (forall b q, b <> a -> getp s b = Some q -> exists q', getp s' b = Some q' /\ p_cons q' = p_cons q).
Proof.
  induction l as [|x l IH]; intros s s' p I T O G E; cbn [run_acts] in E.
  - injection E as <-. exists p. repeat split; eauto.
  - destruct (run_act a s x) as [s1|] eqn:R; [|discriminate]. pose proof (run_act_same _ _ _ _ R) as S.
    destruct (run_act_owns a s x s1 p I T O G R) as (p1 & G1 & C1 & B1).
    destruct (IH s1 s' p1) as (p' & G' & C' & B'); [rewrite <- (sm_plugins _ _ S); exact I|exact (there_same _ _ S T)|exact (own_api_same _ _ _ S O)|exact G1|exact E|].
    exists p'. split; [exact G'|]. split.
    + intros c. rewrite C', C1. change (x :: l) with ([x] ++ l). rewrite registered_app. reflexivity.
    + intros b q N Gb. destruct (B1 b q N Gb) as (q1 & Gq & Eq). destruct (B' b q1 N Gq) as (q' & Gq' & Eq'). exists q'. split; [exact Gq'|congruence].
Qed.

(** what is logged while a plugin acts *)
Definition unlinks_of (acts : list act) (l : list call) : Prop :=
  forall x, In x l -> exists k i d, x = CUnlink k i d /\ In (AUnreg d) acts.
Lemma run_act_log a s x s' : run_act a s x = Some s' -> exists l, log s' = log s ++ l /\ unlinks_of [x] l.
Proof.
  assert (N : forall s1, log s1 = log s -> exists l, log s1 = log s ++ l /\ unlinks_of [x] l).
  { intros s1 E. exists []. rewrite app_nil_r. split; [exact E|intros y []]. }
  assert (M : forall s1 id c s2, log s1 = log s -> x = AUnreg c -> unregister s1 id c = Some s2 -> exists l, log s2 = log s ++ l /\ unlinks_of [x] l).
  { intros s1 id c s2 E X U. apply unregister_say in U. subst s2 x. rewrite <- E. eexists. split; [reflexivity|]. intros y Y. apply in_map_iff in Y.
    destruct Y as (k & <- & _). exists k, id, c. split; [reflexivity|left; reflexivity]. }
  unfold run_act. destruct (getp s a) as [p|]; [|discriminate]. destruct (p_api p) as [api|]; [|discriminate]. destruct (p_lib p) as [lib|]; [|discriminate].
  destruct x; try destruct (find_api s (plugins s) api) as [[b|]|]; try discriminate; try (destruct (getp s b) as [q|]; [|discriminate]); intros E.
  all: first [injection E as <-; apply N; reflexivity | eapply M; [|reflexivity|exact E]; reflexivity].
Qed.
Lemma run_acts_log a l : forall s s', run_acts a s l = Some s' -> exists r, log s' = log s ++ r /\ unlinks_of l r.
Proof.
  induction l as [|x l IH]; intros s s' E; cbn [run_acts] in E.
  - injection E as <-. exists []. rewrite app_nil_r. split; [reflexivity|intros y []].
  - destruct (run_act a s x) as [s1|] eqn:R; [|discriminate]. destruct (run_act_log _ _ _ _ R) as (r1 & L1 & U1). destruct (IH _ _ E) as (r2 & L2 & U2).
    exists (r1 ++ r2). rewrite L2, L1, app_assoc. split; [reflexivity|]. intros y Y. apply in_app_or in Y. destruct Y as [Y|Y].
    + destruct (U1 y Y) as (k & i & d & -> & [D|[]]). exists k, i, d. split; [reflexivity|left; exact D].
    + destruct (U2 y Y) as (k & i & d & -> & D). exists k, i, d. split; [reflexivity|right; exact D].
Qed.

(** ** C62 *)
Theorem C62_registered : forall s a p acts s' r, reachable s -> In a (plugins s) -> getp s a = Some p -> is_loaded p -> own_api s a ->
  step s (OAct a acts) = Some (s', r) ->
  exists p', getp s' a = Some p' /\ (forall c, owns p' c = registered c acts (owns p c)) /\
    (forall b q, b <> a -> getp s b = Some q -> exists q', getp s' b = Some q' /\ p_cons q' = p_cons q).
Proof.
  intros s a p acts s' r R I G L O E. apply reachable_Good in R. destruct R as (IV & _ & _). cbn [step] in E.
  replace (existsb (Nat.eqb a) (plugins s)) with true in E by (symmetry; apply existsb_exists; exists a; split; [exact I|apply Nat.eqb_refl]).
  rewrite G in E. assert (X : exists x, p_status p = Some x /\ loaded x = true) by (destruct L as [-> | ->]; eauto). destruct X as (x & X & LX). rewrite X, LX in E.
  destruct (run_acts a s acts) as [s1|] eqn:RA; [|discriminate]. injection E as <- _.
  exact (run_acts_owns a acts s s1 p I (iv_get _ IV) O G RA).
Qed.
Print Assumptions C62_registered.

Lemma hearers_flat s : hearers s = flat_map (fun a => match getp s a with Some p => if hears p then p_events p else [] | None => [] end) (plugins s).
Proof.
  unfold hearers, listed. induction (plugins s) as [|a l IH]; [reflexivity|]. cbn [flat_map]. destruct (getp s a) as [p|]; [|exact IH].
  cbn [app filter]. destruct (hears p); cbn [flat_map app]; [rewrite IH; reflexivity|exact IH].
Qed.
Lemma flat_map_in {A B} (f g : A -> list B) l : (forall a, In a l -> f a = g a) -> flat_map f l = flat_map g l.
Proof. intros H. induction l as [|a l IH]; [reflexivity|]. cbn [flat_map]. rewrite (H a (or_introl eq_refl)), IH; [reflexivity|]. intros b I. apply H. right. exact I. Qed.

(** the objects of the plugin at [a] are unregistered *)
Lemma unreg_all_log s a p s' : getp s a = Some p -> unreg_all s a = Some s' ->
  log s' = log s ++ unlinks (hearers s) (p_id p) (p_cons p) /\ plugins s' = plugins s /\
  (forall b, getp s' b = if b =? a then Some (with_cons [] p) else getp s b).
Proof.
  intros G E. unfold unreg_all in E. rewrite G in E. destruct (unreg_list s (p_id p) (p_cons p)) as [s1|] eqn:U; [|discriminate].
  apply unreg_list_say in U. subst s1. rewrite getp_say, G in E. injection E as <-. split; [reflexivity|]. split; [reflexivity|].
  intros b. rewrite getp_setp; [reflexivity|]. exact (getp_lt _ _ _ G).
Qed.
Definition no_unlink (l : list call) : Prop := forall x i c, ~ In (CUnlink x i c) l.
Lemma sh_unload_log s plug a d s' : sh_unload s plug a d = Some s' -> exists l, log s' = log s ++ l /\ no_unlink l /\ plugins s' = plugins s /\
  (forall b, b <> a -> getp s' b = getp s b).
Proof.
  unfold sh_unload. destruct (depth _ =? 0); intros E.
  - apply ready_spec in E. destruct E as (p & G & H & P & _ & _ & _ & _ & _ & _ & _ & L & _). exists (match p_ufn p with Some _ => [CUnloadFn a] | None => [] end).
    split; [exact L|]. split; [|split; [exact P|]].
    + intros x i c. destruct (p_ufn p); [intros [K|[]]; discriminate K|intros []].
    + intros b N. unfold getp. rewrite H. rewrite nth_setnth_other by congruence. reflexivity.
  - injection E as <-. exists []. rewrite app_nil_r. repeat split. intros x i c [].
Qed.

(** Besides the unregistrations by the callback itself, there is one notification for each object and each listener. *)
Theorem C62_unload : forall s id force c s' a p, reachable s -> In a (plugins s) -> getp s a = Some p -> p_id p = id ->
  p_api p <> None -> p_lib p <> None -> own_api s a ->
  step s (OUnload id force c) = Some (s', RBool true) ->
  exists cs pre rest,
    log s' = log s ++ [CUnload a (snd c) force] ++ pre ++ unlinks (hearers s') id cs ++ rest /\
    (forall x, count_occ Nat.eq_dec cs x = registered x (fst c) (owns p x)) /\ unlinks_of (fst c) pre /\ no_unlink rest.
Proof.
  intros s id force c s' a p R I G Hid A L O E. apply reachable_Good in R. destruct R as (IV & _ & _).
  cbn [step] in E. destruct (Unload s id force c) as [[s9 b9]|] eqn:U; [|discriminate]. cbn [fst snd] in E. injection E as E1 E2. subst s9 b9.
  unfold Unload in U. destruct (find_id s (plugins s) id) as [fa|] eqn:F; [|discriminate]. pose proof (find_id_spec _ _ _ _ F) as FS.
  assert (fa = Some a).
  { destruct fa as [b|]; [|exfalso; exact (FS a p I G Hid)]. destruct FS as (Ib & q & Gq & Q). f_equal. apply (iv_ids _ IV b a q p); auto; congruence. }
  subst fa. rewrite G in U. destruct (_Unload s a force c) as [[s8 b8]|] eqn:V; [|discriminate]. destruct b8; [|discriminate].
  destruct (iter_plevent s8 OnUnload (p_id p)) as [s7|] eqn:N; [|discriminate]. injection U as <-.
  unfold _Unload in V. rewrite G in V. destruct (p_api p) as [api|] eqn:AP; [|congruence]. destruct (p_lib p) as [lib|] eqn:LI; [|congruence].
  destruct (call_plugin s a _ (fst c)) as [s1|] eqn:C; [|discriminate]. destruct (snd c || force); [|discriminate].
  assert (S1 := call_plugin_same _ _ _ _ _ C). unfold call_plugin in C. rewrite G in C. destruct (callable s p); [|discriminate].
  destruct (run_acts_log _ _ _ _ C) as (pre & PL & PU). cbn [log say set_log] in PL.
  destruct (run_acts_owns a (fst c) (say [CUnload a (snd c) force] s) s1 p I (iv_get _ IV) O G C) as (p1 & G1 & C1 & _).
  rewrite G1 in V. set (s2 := setp s1 a (Some (with_events [] p1))) in V.
  assert (IV1 : Inv s1) by exact (Inv_frame _ _ (same_frame _ _ S1) IV). assert (Ia1 : In a (plugins s1)) by (rewrite <- (sm_plugins _ _ S1); exact I).
  assert (LT1 := getp_lt _ _ _ G1).
  assert (G2 : getp s2 a = Some (with_events [] p1)) by (apply getp_setp_same; exact LT1).
  assert (IDp : p_id p1 = p_id p) by (destruct (same_getp _ _ _ _ S1 G) as (q & Gq & Q); rewrite G1 in Gq; injection Gq as <-; exact (core_id _ _ Q)).
  destruct (unreg_all s2 a) as [s3|] eqn:UA; [|discriminate]. destruct (unreg_all_log _ _ _ _ G2 UA) as (L3 & P3 & B3).
  destruct (erase_id s3 (plugins s3) (p_id p1)) as [l|] eqn:ER; [|discriminate].
  destruct (sh_unload (set_plugins l s3) (p_id p1) a true) as [s4|] eqn:SH; [|discriminate]. injection V as <-.
  assert (G3 : getp s3 a = Some (with_cons [] (with_events [] p1))) by (rewrite B3, Nat.eqb_refl; reflexivity).
  assert (S3 : same s1 s3).
  { eapply same_trans; [|exact (unreg_all_same _ _ _ UA)]. eapply same_setp; [exact G1|]. reflexivity. }
  assert (IV3 : Inv s3) by exact (Inv_frame _ _ (same_frame _ _ S3) IV1).
  assert (Ia3 : In a (plugins s3)) by (rewrite <- (sm_plugins _ _ S3); exact Ia1).
  destruct (erase_own s3 a _ l IV3 Ia3 G3 ER) as (l1 & l2 & PP & LL).
  destruct (sh_unload_log _ _ _ _ _ SH) as (r4 & L4 & N4 & P4 & B4).
  assert (HH : hearers s7 = hearers s2).
  { assert (P7 : plugins s7 = l1 ++ l2) by (rewrite <- (sm_plugins _ _ (iter_same _ _ _ _ N)), P4; exact LL).
    assert (P2 : plugins s2 = l1 ++ a :: l2) by (rewrite <- P3; exact PP).
    assert (GE : forall b, getp s7 b = getp s4 b).
    { intros b. unfold iter_plevent, call_all in N. match type of N with context [gather ?x ?y ?z] => destruct (gather x y z) as [ls|] end; [|discriminate].
      match type of N with (if ?x then _ else _) = _ => destruct x end; [|discriminate]. injection N as <-. reflexivity. }
    rewrite !hearers_flat, P7, P2, !flat_map_app. cbn [flat_map]. rewrite G2.
    assert (ND := iv_nodup _ IV3). rewrite PP in ND. apply NoDup_mid in ND. destruct ND as [_ NI].
    assert (GB : forall b, In b (l1 ++ l2) -> getp s7 b = getp s2 b).
    { intros b Ib. assert (b <> a) by (intros ->; exact (NI Ib)). rewrite GE, B4 by assumption. change (getp (set_plugins l s3) b) with (getp s3 b).
      rewrite B3. destruct (Nat.eqb_spec b a); [contradiction|reflexivity]. }
    replace (if hears (with_events [] p1) then p_events (with_events [] p1) else []) with (@nil listener) by (destruct (hears _); reflexivity).
    cbn [app]. f_equal; apply flat_map_in; intros b Ib; rewrite GB; auto; apply in_or_app; auto. }
  unfold iter_plevent, call_all in N. match type of N with context [gather ?x ?y ?z] => destruct (gather x y z) as [ls|] end; [|discriminate].
  match type of N with (if ?x then _ else _) = _ => destruct x end; [|discriminate]. injection N as N.
  exists (p_cons p1), pre, (r4 ++ map (fun l => CNote l OnUnload (p_id p)) ls). split; [|split; [|split; [exact PU|]]].
  - rewrite HH, <- Hid, <- N. cbn [log say set_log]. rewrite L4. change (log (set_plugins l s3)) with (log s3). rewrite L3. change (log s2) with (log s1). rewrite PL.
    change (p_id (with_events [] p1)) with (p_id p1). change (p_cons (with_events [] p1)) with (p_cons p1). rewrite IDp, <- !app_assoc. reflexivity.
  - intros x. exact (C1 x).
  - intros x i d K. apply in_app_or in K. destruct K as [K|K]; [exact (N4 x i d K)|]. apply in_map_iff in K. destruct K as (y & Y & _). discriminate Y.
Qed.
Print Assumptions C62_unload.

(** Example: the plugin with the id 1 listens; the plugin with the id 2 registers 7, 8 and 7 while
    it is loaded, unregisters 7 later, and registers 9 in its Unload callback: 8, 7 and 9 are
    unregistered when it is unloaded, and the other plugin is told. *)
Definition console : list op :=
  [OLoad (f_ "a.so") 0 (lib_ 5 [AListen 1] true); OLoad (f_ "b.so") 0 (lib_ 6 [AReg 7; AReg 8; AReg 7] true); OAct 1 [AUnreg 7]].
Definition console_st : st := match run init console with Some (s, _) => s | None => init end.
Definition console_p : plugin := match getp console_st 1 with Some p => p | None => mkP 0 [] None None 0 None None None [] [] end.
Definition console_end : st := match step console_st (OUnload 2 false ([AReg 9], true)) with Some (s, _) => s | None => init end.
Example C62_example : reachable console_st /\ In 1 (plugins console_st) /\ getp console_st 1 = Some console_p /\ p_id console_p = 2%Z /\
  p_api console_p <> None /\ p_lib console_p <> None /\ own_api console_st 1 /\
  map (owns console_p) [7; 8; 9] = [1; 1; 0] /\ map (fun x => registered x [AReg 9] (owns console_p x)) [7; 8; 9] = [1; 1; 1] /\
  step console_st (OUnload 2 false ([AReg 9], true)) = Some (console_end, RBool true) /\ hearers console_end = [(0, 1)] /\
  log console_end = log console_st ++ [CUnload 1 true false] ++ unlinks [(0, 1)] 2 [8; 7; 9] ++ [CUnloadFn 1; CNote (0, 1) OnUnload 2].
Proof.
  split; [exists console; eexists; vm_compute; reflexivity|]. split; [vm_compute; auto|]. split; [vm_compute; reflexivity|]. split; [vm_compute; reflexivity|].
  split; [vm_compute; discriminate|]. split; [vm_compute; discriminate|]. split.
  { intros b p q I P Q E. assert (J : b = 0 \/ b = 1) by (change (plugins console_st) with [0; 1] in I; cbn [In] in I; intuition). destruct J as [-> | ->]; [|reflexivity].
    vm_compute in P. vm_compute in Q. injection P as <-. injection Q as <-. discriminate E. }
  split; [vm_compute; reflexivity|]. split; [vm_compute; reflexivity|]. split; [vm_compute; reflexivity|]. split; vm_compute; reflexivity.
Qed.
Print Assumptions C62_example.
