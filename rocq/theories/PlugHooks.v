(** Hooks and the plugins that own them. *)
From Coq Require Import List ZArith Bool Arith Ascii Lia.
From Verif Require Import Base ListModel StrModel StrSpec StrProofs PlugModel PlugSpec PlugProofs PlugRun PlugSafe PlugSafe2 PlugSafe3 PlugProps.
Import ListNotations.
Local Open Scope list_scope.
Local Open Scope nat_scope.
Notation length := List.length.

(** [X]: the plugin that is being called or set up; [W]: paused plugins add no hooks. *)
Record HX (W : Prop) (X : option nat) (s : st) : Prop := mkHX {
  hx_told : forall a p, In a (plugins s) -> getp s a = Some p -> is_loaded p -> p_told p = Some (p_id p);
  hx_own : forall k, In k (hooks s) -> exists p, In (h_owner k) (plugins s) /\ getp s (h_owner k) = Some p /\ h_plug k = p_id p /\
             (X = Some (h_owner k) \/ (is_loaded p /\ (W -> (h_paused k = true <-> p_status p = Some Paused))))
}.
Definition unp (a : nat) (s : st) : Prop := forall k, In k (hooks s) -> h_owner k = a -> h_paused k = false.

Lemma iter_hooks s k id s' : iter_plevent s k id = Some s' -> hooks s' = hooks s.
Proof. unfold iter_plevent, call_all. destruct (gather _ _ _) as [ls|]; [|discriminate]. destruct (forallb (fun l => is_open s (fst l)) ls); [|discriminate]. intros E. injection E as <-. reflexivity. Qed.
Lemma unregister_hooks s id c s' : unregister s id c = Some s' -> hooks s' = hooks s.
Proof. unfold unregister, call_all. destruct (gather _ _ _) as [ls|]; [|discriminate]. destruct (forallb (fun l => is_open s (fst l)) ls); [|discriminate]. intros E. injection E as <-. reflexivity. Qed.
Lemma unreg_list_hooks id : forall cs s s', unreg_list s id cs = Some s' -> hooks s' = hooks s.
Proof. induction cs as [|c cs IH]; intros s s' E; cbn [unreg_list] in E; [injection E as <-; reflexivity|]. destruct (unregister s id c) as [s1|] eqn:U; [|discriminate]. rewrite (IH _ _ E). exact (unregister_hooks _ _ _ _ U). Qed.
Lemma unreg_all_hooks s a s' : unreg_all s a = Some s' -> hooks s' = hooks s.
Proof. unfold unreg_all. destruct (getp s a) as [p|]; [|discriminate]. destruct (unreg_list _ _ _) as [s1|] eqn:U; [|discriminate]. destruct (getp s1 a); [|discriminate]. intros E. injection E as <-. exact (unreg_list_hooks _ _ _ _ U). Qed.

(** What a callback does to the hooks *)
Lemma run_act_hooks a s x s' p : getp s a = Some p -> run_act a s x = Some s' ->
  (forall k, In k (hooks s') -> In k (hooks s) \/ (h_owner k = a /\ h_plug k = match p_told p with Some t => t | None => 0%Z end /\ h_paused k = false)) /\
  ((forall h, x <> AHook h) -> forall k, In k (hooks s') -> In k (hooks s)).
Proof.
  intros G E. unfold run_act in E. rewrite G in E. destruct (p_api p) as [api|]; [|discriminate]. destruct (p_lib p) as [lib|]; [|discriminate].
  assert (SAME : hooks s' = hooks s -> (forall k, In k (hooks s') -> In k (hooks s) \/ (h_owner k = a /\ h_plug k = match p_told p with Some t => t | None => 0%Z end /\ h_paused k = false)) /\
  ((forall h, x <> AHook h) -> forall k, In k (hooks s') -> In k (hooks s))) by (intros ->; auto).
  destruct x.
  - injection E as <-. cbn [hooks set_hooks]. split.
    + intros k Ik. apply in_app_or in Ik. destruct Ik as [Ik|[<-|[]]]; auto.
    + intros C. exfalso. exact (C h eq_refl).
  - injection E as <-. cbn [hooks set_hooks]. split; [intros k Ik; left|intros _ k Ik]; apply filter_In in Ik; apply Ik.
  - apply SAME. destruct (find_api _ _ _) as [[b|]|]; try discriminate. destruct (getp s b); [|discriminate]. injection E as <-. reflexivity.
  - apply SAME. destruct (find_api _ _ _) as [[b|]|]; try discriminate; [destruct (getp s b); [|discriminate]|]; injection E as <-; reflexivity.
  - apply SAME. destruct (find_api _ _ _) as [[b|]|]; try discriminate; [destruct (getp s b); [|discriminate]|]; apply unregister_hooks in E; exact E.
Qed.
Lemma run_acts_hooks a : forall acts s s' p, getp s a = Some p -> run_acts a s acts = Some s' ->
  (forall k, In k (hooks s') -> In k (hooks s) \/ (h_owner k = a /\ h_plug k = match p_told p with Some t => t | None => 0%Z end /\ h_paused k = false)) /\
  (no_hook acts -> forall k, In k (hooks s') -> In k (hooks s)).
Proof.
  induction acts as [|x acts IH]; intros s s' p G E; cbn [run_acts] in E; [injection E as <-; auto|]. destruct (run_act a s x) as [s1|] eqn:R; [|discriminate].
  destruct (run_act_hooks a s x s1 p G R) as [A1 A2]. apply run_act_same in R. destruct (same_getp _ _ _ _ R G) as (p1 & G1 & C1). destruct (IH s1 s' p1 G1 E) as [B1 B2].
  rewrite (core_told _ _ C1) in B1. split.
  - intros k Ik. destruct (B1 k Ik) as [J|J]; [exact (A1 k J)|auto].
  - intros N k Ik. apply A2; [intros h ->; apply (N h); left; reflexivity|]. apply B2; [intros h J; apply (N h); right; exact J|exact Ik].
Qed.
Lemma call_hooks s a c acts s' p : getp s a = Some p -> call_plugin s a c acts = Some s' ->
  (forall k, In k (hooks s') -> In k (hooks s) \/ (h_owner k = a /\ h_plug k = match p_told p with Some t => t | None => 0%Z end /\ h_paused k = false)) /\
  (no_hook acts -> forall k, In k (hooks s') -> In k (hooks s)).
Proof. intros G E. unfold call_plugin in E. rewrite G in E. destruct (callable s p); [|discriminate]. exact (run_acts_hooks a acts (say [c] s) s' p G E). Qed.

Lemma HX_same W X s s' : same s s' -> (forall k, In k (hooks s') -> In k (hooks s)) -> HX W X s -> HX W X s'.
Proof.
  intros F J [T O]. split.
  - intros a p Ia G L. destruct (same_getp _ _ _ _ (same_sym _ _ F) G) as (p0 & G0 & C). rewrite <- (core_told _ _ C), <- (core_id _ _ C). rewrite <- (sm_plugins _ _ F) in Ia. apply (T a p0 Ia G0). unfold is_loaded in *. rewrite (core_status _ _ C). exact L.
  - intros k Ik. destruct (O k (J k Ik)) as (p & Io & G & P & Q). destruct (same_getp _ _ _ _ F G) as (p' & G' & C). exists p'. rewrite <- (sm_plugins _ _ F). split; [exact Io|]. split; [exact G'|]. rewrite (core_id _ _ C). split; [exact P|]. unfold is_loaded. rewrite (core_status _ _ C). exact Q.
Qed.
Lemma HX_enter W s a : HX W None s -> HX W (Some a) s.
Proof. intros [T O]. split; [exact T|]. intros k Ik. destruct (O k Ik) as (p & Io & G & P & [C|Q]); [discriminate|]. exists p. auto. Qed.
Lemma HX_call W X s a c acts s' p : HX W X s -> In a (plugins s) -> getp s a = Some p -> p_told p = Some (p_id p) ->
  (X = Some a \/ (is_loaded p /\ (W -> p_status p = Some Paused -> no_hook acts))) ->
  call_plugin s a c acts = Some s' -> HX W X s'.
Proof.
  intros H Ia G T0 XX E. destruct (call_hooks _ _ _ _ _ _ G E) as [A1 A2]. apply call_plugin_same in E. rewrite T0 in A1. pose proof H as [T O].
  destruct (HX_same W X s (set_hooks (hooks s) s')) as [T' O']; [eapply same_trans; [exact E|apply same_hooks]|auto|exact H|].
  split; [exact T'|]. intros k Ik. destruct (A1 k Ik) as [J|(J1 & J2 & J3)]; [exact (O' k J)|].
  destruct (same_getp _ _ _ _ E G) as (p' & G' & C). exists p'. rewrite J1, <- (sm_plugins _ _ E), (core_id _ _ C). split; [exact Ia|]. split; [exact G'|]. split; [exact J2|].
  assert (D : X = Some a \/ X <> Some a) by (destruct X as [x|]; [destruct (Nat.eq_dec x a); [left|right]; congruence|right; discriminate]).
  destruct D as [D|D]; [left; exact D|right]. destruct XX as [XX|[LD NH]]; [contradiction|]. unfold is_loaded. rewrite (core_status _ _ C). split; [exact LD|]. intros w. split; [congruence|]. intros P.
  specialize (A2 (NH w P) k Ik). destruct (O k A2) as (p0 & _ & G0 & _ & [C0|[_ Q]]); rewrite J1 in *; [contradiction|].
  assert (p0 = p) by congruence. subst p0. exact (proj2 (Q w) P).
Qed.
Lemma unp_call a s c acts s' p : getp s a = Some p -> unp a s -> call_plugin s a c acts = Some s' -> unp a s'.
Proof. intros G U E k Ik Eo. destruct (call_hooks _ _ _ _ _ _ G E) as [A1 _]. destruct (A1 k Ik) as [J|(_ & _ & J)]; [exact (U k J Eo)|exact J]. Qed.

(** Updates of the plugin that is being set up *)
Lemma HX_setp W s a p q : HX W (Some a) s -> getp s a = Some p -> p_id q = p_id p -> (is_loaded q -> p_told q = Some (p_id q)) -> HX W (Some a) (setp s a (Some q)).
Proof.
  intros [T O] G EI TQ. pose proof (getp_lt _ _ _ G) as LT. split.
  - intros b r Ib R L. rewrite getp_setp in R by exact LT. destruct (b =? a); [injection R as <-; exact (TQ L)|exact (T b r Ib R L)].
  - intros k Ik. destruct (O k Ik) as (r & Io & R & P & Q). destruct (Nat.eq_dec (h_owner k) a) as [e|N].
    + exists q. split; [exact Io|]. rewrite e. rewrite getp_setp_same by exact LT. split; [reflexivity|]. split; [|left; reflexivity]. rewrite EI, P. assert (r = p) by congruence. congruence.
    + exists r. rewrite getp_setp_other by congruence. auto.
Qed.
Lemma HX_leave W s a : HX W (Some a) s -> (forall k p, In k (hooks s) -> h_owner k = a -> getp s a = Some p -> is_loaded p /\ (W -> (h_paused k = true <-> p_status p = Some Paused))) -> HX W None s.
Proof.
  intros [T O] L. split; [exact T|]. intros k Ik. destruct (O k Ik) as (p & Io & G & P & [C|Q]); exists p; (split; [exact Io|]; split; [exact G|]; split; [exact P|]); right; [|exact Q]. injection C as C. apply (L k p Ik); congruence.
Qed.
Lemma HX_eq W X s s' : heap s' = heap s -> plugins s' = plugins s -> hooks s' = hooks s -> HX W X s -> HX W X s'.
Proof.
  intros H P K [T O]. assert (GE : forall a, getp s' a = getp s a) by (intros a; unfold getp; rewrite H; reflexivity). split.
  - intros a p. rewrite P, GE. apply T.
  - intros k. rewrite K, P, GE. apply O.
Qed.
(** A plugin goes away: its hooks are removed *)
Lemma HX_drop W s a p l : HX W (Some a) s -> Inv s -> In a (plugins s) -> getp s a = Some p ->
  (forall b, In b (plugins s) -> b <> a -> In b l) -> (forall b, In b l -> In b (plugins s)) -> (~ is_loaded p \/ ~ In a l) ->
  HX W None (set_hooks (filter (fun k => negb (h_plug k =? p_id p)%Z) (hooks s)) (set_plugins l s)).
Proof.
  intros [T O] I Ia G J1 J2 NL. split.
  - intros b r Ib. apply (T b r). apply J2. exact Ib.
  - intros k Ik. cbn [hooks set_hooks set_plugins] in Ik. apply filter_In in Ik. destruct Ik as [Ik N]. apply negb_true_iff, Z.eqb_neq in N. destruct (O k Ik) as (r & Io & R & P & Q).
    assert (NA : h_owner k <> a) by (intros e; rewrite e in R; apply N; congruence).
    exists r. split; [apply J1; assumption|]. split; [exact R|]. split; [exact P|]. right. destruct Q as [C|Q]; [congruence|exact Q].
Qed.
Lemma HX_ready W s a d s' p : HX W None s -> getp s a = Some p -> (d = true -> ~ In a (plugins s)) -> ready s a d = Some s' -> HX W None s'.
Proof.
  intros [T O] G D E. destruct (ready_spec _ _ _ _ E) as (p0 & G0 & Hh & Hp & _ & _ & Hk & _). assert (p0 = p) by congruence. subst p0. pose proof (getp_lt _ _ _ G) as LT.
  assert (GE : forall b, getp s' b = if b =? a then (if d then None else Some (with_lib None (p_ver p) None (p_ufn p) p)) else getp s b).
  { intros b. rewrite <- (getp_setp s a b (if d then None else Some (with_lib None (p_ver p) None (p_ufn p) p)) LT). unfold getp, setp. cbn [heap set_heap]. rewrite Hh. reflexivity. }
  split.
  - intros b r. rewrite Hp, GE. intros Ib. destruct (Nat.eqb_spec b a) as [->|N]; [|apply T; exact Ib]. destruct d; [discriminate|]. intros Q. injection Q as <-. exact (T a p Ib G).
  - intros k. rewrite Hk, Hp, GE. intros Ik. destruct (O k Ik) as (r & Io & R & P & Q). destruct (Nat.eqb_spec (h_owner k) a) as [e|N]; [|eauto]. rewrite e in *. destruct d; [exfalso; exact (D eq_refl Io)|]. assert (r = p) by congruence. subst r. eexists. split; [exact Io|]. split; [reflexivity|]. auto.
Qed.
Lemma HX_shu W s a p l d s' : HX W (Some a) s -> Inv s -> In a (plugins s) -> getp s a = Some p ->
  (forall b, In b (plugins s) -> b <> a -> In b l) -> (forall b, In b l -> In b (plugins s)) -> (~ is_loaded p \/ ~ In a l) -> (d = true -> ~ In a l) ->
  sh_unload (set_plugins l s) (p_id p) a d = Some s' -> HX W None s'.
Proof.
  intros H I Ia G J1 J2 NL D E. pose proof (HX_drop W s a p l H I Ia G J1 J2 NL) as HD. unfold sh_unload in E.
  change (set_hooks (filter (fun k => negb (h_plug k =? p_id p)%Z) (hooks (set_plugins l s))) (set_plugins l s)) with (set_hooks (filter (fun k => negb (h_plug k =? p_id p)%Z) (hooks s)) (set_plugins l s)) in E.
  cbn [depth set_hooks set_plugins] in E. destruct (depth s =? 0).
  - eapply HX_ready; [exact HD|exact G|exact D|exact E].
  - injection E as <-. apply (HX_eq W None (set_hooks (filter (fun k => negb (h_plug k =? p_id p)%Z) (hooks s)) (set_plugins l s))); auto.
Qed.

(** ** Load *)
Lemma HX_load_lib W s a li s' p0 : HX W (Some a) s -> unp a s -> In a (plugins s) -> getp s a = Some p0 -> p_status p0 = None -> load_lib s a li = Some s' ->
  HX W (Some a) s' /\ unp a s' /\ (forall p, getp s' a = Some p -> p_status p <> Some Paused /\ p_lib p <> None).
Proof.
  intros H U Ia G S0 E. unfold load_lib in E. set (s1 := set_nlib (S (nlib s)) (set_libs (libs s ++ [nlib s]) s)) in *. change (getp s1 a) with (getp s a) in E. rewrite G in E.
  set (api := match (if li_fnload li then li_api1 li else None) with Some _ => _ | None => _ end) in *. set (ufn := if li_fnload li && li_ufn li then _ else _) in *.
  assert (H1 : HX W (Some a) s1) by (apply (HX_eq W (Some a) s); auto). assert (U1 : unp a s1) by exact U. assert (G1 : getp s1 a = Some p0) by exact G. assert (I1 : In a (plugins s1)) by exact Ia.
  set (p1 := with_lib api (li_ver li) (Some (nlib s)) ufn p0) in *.
  assert (ERR : Some (setp s1 a (Some (with_status Error p1))) = Some s' -> HX W (Some a) s' /\ unp a s' /\ (forall p, getp s' a = Some p -> p_status p <> Some Paused /\ p_lib p <> None)).
  { intros Q. injection Q as <-. split; [apply (HX_setp W s1 a p0); auto; intros [C|C]; discriminate|]. split; [exact U1|]. intros p. rewrite getp_setp_same by exact (getp_lt _ _ _ G1). intros R. injection R as <-. split; discriminate. }
  destruct api as [ap|]; [|exact (ERR E)]. destruct (_ || _); [exact (ERR E)|]. clear ERR.
  set (p2 := with_told (Some (p_id p1)) p1) in *. set (s2 := setp s1 a (Some p2)) in *.
  assert (H2 : HX W (Some a) s2) by (apply (HX_setp W s1 a p0); auto).
  assert (G2 : getp s2 a = Some p2) by (apply getp_setp_same; exact (getp_lt _ _ _ G1)).
  destruct (call_plugin s2 a _ _) as [s3|] eqn:K; [|discriminate].
  pose proof (HX_call W (Some a) s2 a _ _ s3 p2 H2 I1 G2 eq_refl (or_introl eq_refl) K) as H3. pose proof (unp_call a s2 _ _ s3 p2 G2 U1 K) as U3. apply call_plugin_same in K.
  destruct (same_getp _ _ _ _ K G2) as (p3 & G3 & C3). rewrite G3 in E.
  assert (T3 : p_told p3 = Some (p_id p3)) by (rewrite (core_told _ _ C3), (core_id _ _ C3); reflexivity).
  assert (L3 : p_lib p3 <> None) by (rewrite (core_lib _ _ C3); discriminate).
  assert (I3 : In a (plugins s3)) by (rewrite <- (sm_plugins _ _ K); exact I1).
  destruct (snd (li_load li)).
  - set (s4 := setp s3 a (Some (with_status Running p3))) in *. assert (H4 : HX W (Some a) s4) by (apply (HX_setp W s3 a p3); auto).
    assert (G4 : getp s4 a = Some (with_status Running p3)) by (apply getp_setp_same; exact (getp_lt _ _ _ G3)). assert (U4 : unp a s4) by exact U3. assert (I4 : In a (plugins s4)) by exact I3.
    destruct (allloaded s4).
    + pose proof (HX_call W (Some a) s4 a _ _ s' _ H4 I4 G4 T3 (or_introl eq_refl) E) as H5. pose proof (unp_call a s4 _ _ s' _ G4 U4 E) as U5. apply call_plugin_same in E. destruct (same_getp _ _ _ _ E G4) as (p5 & G5 & C5).
      split; [exact H5|]. split; [exact U5|]. intros p R. assert (p = p5) by congruence. subst p. rewrite (core_status _ _ C5), (core_lib _ _ C5). split; [discriminate|exact L3].
    + injection E as <-. split; [exact H4|]. split; [exact U4|]. intros p R. rewrite G4 in R. injection R as <-. split; [discriminate|exact L3].
  - injection E as <-. split; [apply (HX_setp W s3 a p3); auto|]. split; [exact U3|]. intros p. rewrite getp_setp_same by exact (getp_lt _ _ _ G3). intros R. injection R as <-. split; [discriminate|exact L3].
Qed.
Lemma HX__Load W s file li s' a : Inv s -> HX W None s -> _Load s file li = Some (s', a) -> HX W None s'.
Proof.
  intros I H E. unfold _Load in E. fold (newp s file) in E. fold (added s file) in E. set (a0 := length (heap s)) in *. set (s1 := added s file) in *.
  assert (G1 : getp s1 a0 = Some (newp s file)) by (unfold s1, a0; rewrite added_get, Nat.eqb_refl; reflexivity).
  assert (I1 : In a0 (plugins s1)) by (cbn; apply in_elt).
  assert (OWN : forall k, In k (hooks s) -> h_owner k <> a0).
  { intros k Ik e. destruct (hx_own _ _ _ H k Ik) as (p & _ & R & _). apply getp_lt in R. unfold a0 in e. lia. }
  assert (H1 : HX W (Some a0) s1).
  { destruct H as [T O]. split.
    - intros b r Ib R L. unfold s1 in R. rewrite added_get in R. fold a0 in R. destruct (Nat.eqb_spec b a0) as [->|N]; [injection R as <-; destruct L; discriminate|]. apply (T b r); auto. cbn [plugins s1 added set_last set_plugins set_heap] in Ib. apply in_app_or in Ib. destruct Ib as [Ib|[Ib|[]]]; [exact Ib|]. exfalso. apply N. symmetry. exact Ib.
    - intros k Ik. pose proof (OWN k Ik) as N. destruct (O k Ik) as (r & Io & R & P & [C|Q]); [discriminate|]. exists r. split; [cbn; apply in_or_app; auto|]. split; [unfold s1; rewrite added_get; fold a0; apply Nat.eqb_neq in N; rewrite N; exact R|auto]. }
  assert (U1 : unp a0 s1) by (intros k Ik e; exfalso; exact (OWN k Ik e)).
  pose proof (added_Inv s file I) as IV1. fold s1 in IV1.
  set (e := if ends_with file so_ext && li_exists li then _ else _) in *.
  assert (H2 : forall s2, e = Some s2 -> HX W (Some a0) s2 /\ unp a0 s2 /\ (forall p, getp s2 a0 = Some p -> p_status p <> Some Paused /\ (p_lib p = None -> hooks s2 = hooks s)) /\ frame1 a0 s1 s2).
  { intros s2. unfold e. assert (N : forall x, x <> Running -> x <> Paused -> Some (setp s1 a0 (Some (with_status x (newp s file)))) = Some s2 -> HX W (Some a0) s2 /\ unp a0 s2 /\ (forall p, getp s2 a0 = Some p -> p_status p <> Some Paused /\ (p_lib p = None -> hooks s2 = hooks s)) /\ frame1 a0 s1 s2).
    { intros x N1 N2 Q. injection Q as <-. split; [apply (HX_setp W s1 a0 (newp s file)); auto; intros [C|C]; cbn in C; congruence|]. split; [exact U1|]. split; [|apply (frame1_setp a0 s1 (newp s file)); auto]. intros p. rewrite getp_setp_same by exact (getp_lt _ _ _ G1). intros R. injection R as <-. cbn. split; [congruence|reflexivity]. }
    destruct (ends_with file so_ext && li_exists li); [destruct (li_dl li)|]; intros Q; [|apply (N Error); auto; discriminate|apply (N NotFound); auto; discriminate].
    destruct (HX_load_lib W s1 a0 li s2 _ H1 U1 I1 G1 eq_refl Q) as (A & B & C). split; [exact A|]. split; [exact B|]. split; [intros p R; destruct (C p R); split; [assumption|contradiction]|]. exact (proj1 (load_lib_frame1 s1 a0 li s2 _ I1 G1 Q)). }
  destruct e as [s2|]; [|discriminate]. destruct (H2 s2 eq_refl) as (HH & UU & NP & FF). destruct (getp s2 a0) as [p|] eqn:G2; [|discriminate]. destruct (p_status p) as [x|] eqn:X; [|discriminate].
  pose proof (Inv_frame1 _ _ _ FF IV1) as IV2. assert (I2 : In a0 (plugins s2)) by (rewrite (f1_plugins _ _ _ FF); exact I1).
  destruct (loaded x) eqn:Lx.
  - rewrite andb_false_r in E. injection E as <- _. apply (HX_leave W s2 a0 HH). intros k q Ik Ek Gq. assert (q = p) by congruence. subst q. split; [apply (loaded_is p x X); exact Lx|]. intros _. rewrite (UU k Ik Ek). split; [discriminate|]. intros C. exfalso. exact (proj1 (NP p eq_refl) C).
  - assert (NL : ~ is_loaded p) by (intros C; apply (loaded_is p x X) in C; congruence).
    destruct (p_lib p) eqn:L; cbn [andb negb] in E.
    + destruct (unreg_all _ _) as [s3|] eqn:R; [|discriminate]. destruct (sh_unload _ _ _ _) as [s4|] eqn:SU; [|discriminate]. injection E as <- _.
      pose proof (unreg_all_hooks _ _ _ R) as HK. apply unreg_all_same in R.
      assert (SM : same s2 s3) by (eapply same_trans; [eapply (same_setp s2 a0 p (with_events [] p)); [exact G2|reflexivity]|exact R]).
      destruct (same_getp _ _ _ _ SM G2) as (p3 & G3 & C3). rewrite <- (core_id _ _ C3) in SU.
      assert (SP : set_plugins (plugins s3) s3 = s3) by (destruct s3; reflexivity). rewrite <- SP in SU.
      eapply (HX_shu W s3 a0 p3 (plugins s3) false); [| | |exact G3|auto|auto| |discriminate|exact SU].
      * apply (HX_same W (Some a0) s2); [exact SM|rewrite HK; auto|exact HH].
      * exact (Inv_frame _ _ (same_frame _ _ SM) IV2).
      * rewrite <- (sm_plugins _ _ SM). exact I2.
      * left. unfold is_loaded. rewrite (core_status _ _ C3). exact NL.
    + injection E as <- _. apply (HX_leave W s2 a0 HH). intros k q Ik Ek Gq. exfalso.
      (* no library, so no callback and no hooks *)
      assert (q = p) by congruence. subst q. rewrite (proj2 (NP p eq_refl) L) in Ik. exact (OWN k Ik Ek).
Qed.

(** ** The other operations *)
Lemma HX__Unload W s a force c s' r : Inv s -> SafeX None s -> HX W None s -> In a (plugins s) ->
  (W -> forall p, getp s a = Some p -> p_status p = Some Paused -> snd c || force = false -> no_hook (fst c)) ->
  (forall p, getp s a = Some p -> ~ is_loaded p -> p_api p = None \/ p_lib p = None) ->
  _Unload s a force c = Some (s', r) -> HX W None s'.
Proof.
  intros I SF H Ia SIL NLD E. unfold _Unload in E. destruct (getp s a) as [p|] eqn:G; [|discriminate].
  assert (NULLCASE : ~ is_loaded p -> (do l <- erase_id s (plugins s) (p_id p) ; Some (setp (set_plugins l s) a None, true)) = Some (s', r) -> HX W None s').
  { intros NL Q. destruct (erase_id s (plugins s) (p_id p)) as [l|] eqn:El; [|discriminate]. injection Q as <- _. destruct (erase_own s a p l I Ia G El) as (l1 & l2 & E1 & E2).
    pose proof (iv_nodup _ I) as ND. rewrite E1 in ND. destruct (NoDup_mid _ _ _ ND) as [_ NI]. pose proof (getp_lt _ _ _ G) as LT. destruct H as [T O]. split.
    - intros b q Ib Gb. cbn [plugins setp set_heap set_plugins] in Ib. assert (b <> a) by (intros ->; rewrite E2 in Ib; contradiction). rewrite getp_setp_other in Gb by congruence. apply (T b q); [|exact Gb]. rewrite E1. apply in_mid. rewrite <- E2. exact Ib.
    - intros k Ik. destruct (O k Ik) as (q & Io & R & P & [C|[Q1 Q2]]); [discriminate|]. assert (N : h_owner k <> a) by (intros e; rewrite e in R; apply NL; congruence).
      exists q. cbn [plugins setp set_heap set_plugins]. split; [rewrite E2; apply (in_mid_ne l1 a l2); [rewrite <- E1; exact Io|exact N]|]. rewrite getp_setp_other by congruence. auto. }
  destruct (p_api p) as [ap|] eqn:A; [destruct (p_lib p) as [h|] eqn:L|].
  2:{ apply NULLCASE; [|exact E]. intros C. apply (sf_api _ _ SF a p G (sf_run _ _ SF a p Ia G C)). exact L. }
  2:{ apply NULLCASE; [|exact E]. intros C. exact (sf_run _ _ SF a p Ia G C A). }
  clear NULLCASE. destruct (call_plugin _ _ _ _) as [s1|] eqn:K; [|discriminate].
  assert (LD : is_loaded p).
  { unfold is_loaded. destruct (p_status p) as [x|] eqn:X; [destruct x; auto|]; exfalso; (destruct (NLD p eq_refl) as [C|C]; [unfold is_loaded; rewrite X; intros [C|C]; discriminate|congruence|congruence]). }
  assert (TL : p_told p = Some (p_id p)) by exact (hx_told _ _ _ H a p Ia G LD).
  destruct (snd c || force) eqn:OF.
  - pose proof (HX_call W (Some a) s a _ _ s1 p (HX_enter W s a H) Ia G TL (or_introl eq_refl) K) as H1. apply call_plugin_same in K.
    destruct (same_getp _ _ _ _ K G) as (p1 & G1 & C1). rewrite G1 in E. destruct (unreg_all _ _) as [s2|] eqn:R; [|discriminate]. destruct (erase_id _ _ _) as [l|] eqn:El; [|discriminate]. destruct (sh_unload _ _ _ _) as [s3|] eqn:SU; [|discriminate]. injection E as <- _.
    pose proof (unreg_all_hooks _ _ _ R) as HK. apply unreg_all_same in R.
    assert (SM : same s1 s2) by (eapply same_trans; [eapply (same_setp s1 a p1 (with_events [] p1)); [exact G1|reflexivity]|exact R]).
    destruct (same_getp _ _ _ _ SM G1) as (p2 & G2 & C2). rewrite <- (core_id _ _ C2) in SU, El.
    assert (SM0 : same s s2) by (eapply same_trans; eassumption). pose proof (Inv_frame _ _ (same_frame _ _ SM0) I) as I2. assert (Ia2 : In a (plugins s2)) by (rewrite <- (sm_plugins _ _ SM0); exact Ia).
    destruct (erase_own s2 a p2 l I2 Ia2 G2 El) as (l1 & l2 & P1 & P2). pose proof (iv_nodup _ I2) as ND. rewrite P1 in ND. destruct (NoDup_mid _ _ _ ND) as [_ NI].
    eapply (HX_shu W s2 a p2 l true); [|exact I2|exact Ia2|exact G2| | | | |exact SU].
    + apply (HX_same W (Some a) s1); [exact SM|rewrite HK; auto|exact H1].
    + intros b Ib N. rewrite P2. apply (in_mid_ne l1 a l2); [rewrite <- P1; exact Ib|exact N].
    + intros b Ib. rewrite P1. apply in_mid. rewrite <- P2. exact Ib.
    + right. rewrite P2. exact NI.
    + intros _. rewrite P2. exact NI.
  - injection E as <- _. refine (HX_call W None s a _ _ s1 p H Ia G TL _ K). right. split; [exact LD|]. intros w P. exact (SIL w p eq_refl P eq_refl).
Qed.
Lemma HX_pause W b s1 a p1 x : HX W (Some a) s1 -> Inv s1 -> In a (plugins s1) -> getp s1 a = Some p1 -> p_told p1 = Some (p_id p1) -> (x = Running \/ x = Paused) -> (b = true <-> x = Paused) ->
  HX W None (setp (sh_pause b s1 (p_id p1)) a (Some (with_status x p1))).
Proof.
  intros [T O] I Ia G TL X B. pose proof (getp_lt _ _ _ G) as LT. split.
  - intros d r Id R L. rewrite getp_setp in R by exact LT. destruct (d =? a); [injection R as <-; exact TL|exact (T d r Id R L)].
  - intros k Ik. cbn [hooks sh_pause set_hooks setp set_heap plugins] in *. apply in_map_iff in Ik. destruct Ik as (k0 & Ek & Ik). destruct (O k0 Ik) as (r & Io & R & P & Q).
    assert (EO : h_owner k = h_owner k0) by (rewrite <- Ek; destruct (h_plug k0 =? p_id p1)%Z; reflexivity). assert (EP : h_plug k = h_plug k0) by (rewrite <- Ek; destruct (h_plug k0 =? p_id p1)%Z; reflexivity). rewrite EO, EP.
    change (getp (sh_pause b s1 (p_id p1))) with (getp s1) in *. destruct (Nat.eq_dec (h_owner k0) a) as [e|N].
    + exists (with_status x p1). rewrite e in *. assert (r = p1) by congruence. subst r. split; [exact Io|]. split; [apply getp_setp_same; exact LT|]. split; [exact P|]. right. split; [unfold is_loaded; cbn [p_status with_status]; destruct X as [-> | ->]; auto|].
      intros _. rewrite <- Ek. rewrite P, Z.eqb_refl. cbn [h_paused p_status with_status]. rewrite B. split; congruence.
    + exists r. rewrite getp_setp_other by congruence. split; [exact Io|]. split; [exact R|]. split; [exact P|]. right. destruct Q as [Q|Q]; [congruence|].
      assert (EK : k = k0); [|rewrite EK; exact Q]. rewrite <- Ek. destruct (Z.eqb_spec (h_plug k0) (p_id p1)) as [e|]; [|reflexivity]. exfalso. apply N. apply (iv_ids _ I _ _ r p1); auto. congruence.
Qed.
Lemma HX_all_loop W cs : forall l s s', HX W None s -> (forall a, In a l -> In a (plugins s)) -> all_loop s l cs = Some s' -> HX W None s'.
Proof.
  induction l as [|a l IH]; intros s s' H J E; cbn [all_loop] in E; [injection E as <-; exact H|]. destruct (getp s a) as [p|] eqn:G; [|discriminate]. destruct (p_status p) as [x|] eqn:X; [|discriminate].
  assert (SK : all_loop s l cs = Some s' -> HX W None s') by (apply IH; [exact H|intros b Ib; apply J; right; exact Ib]).
  destruct x; try exact (SK E). destruct (p_api p); [|exact (SK E)]. clear SK. destruct (call_plugin _ _ _ _) as [s1|] eqn:K; [|discriminate].
  assert (LD : is_loaded p) by (left; exact X). assert (Ia : In a (plugins s)) by (apply J; left; reflexivity).
  apply (IH s1); [|intros b Ib; apply call_plugin_same in K; rewrite <- (sm_plugins _ _ K); apply J; right; exact Ib|exact E].
  refine (HX_call W None s a _ _ s1 p H Ia G (hx_told _ _ _ H a p Ia G LD) _ K). right. split; [exact LD|]. intros _ C. congruence.
Qed.
Lemma HX_resolve W force : forall l s s' l', HX W None s -> (forall u, In u l -> u_destroy u = true -> ~ In (u_addr u) (plugins s)) -> resolve force s l = Some (s', l') -> HX W None s'.
Proof.
  induction l as [|u l IH]; intros s s' l' H D E; cbn [resolve] in E; [injection E as <- _; exact H|]. destruct (negb force && negb (u_deactivated u)).
  - destruct (resolve force s l) as [[s1 l1]|] eqn:R; [|discriminate]. injection E as <- _. apply (IH s s1 l1 H); [intros v Iv; apply D; right; exact Iv|exact R].
  - destruct (ready s (u_addr u) (u_destroy u)) as [s1|] eqn:R; [|discriminate]. destruct (ready_spec _ _ _ _ R) as (p & G & _ & PL & _).
    apply (IH s1 s' l'); [|rewrite PL; intros v Iv; apply D; right; exact Iv|exact E]. apply (HX_ready W s (u_addr u) (u_destroy u) s1 p); auto. intros Dd. apply (D u); [left; reflexivity|exact Dd].
Qed.
Lemma HX_resolve_pending W force s s' : Inv s -> HX W None s -> resolve_pending force s = Some s' -> HX W None s'.
Proof.
  intros I H E. unfold resolve_pending in E. destruct (resolve force s (pend s)) as [[s1 l1]|] eqn:R; [|discriminate]. injection E as <-. cbn [fst snd]. apply (HX_eq W None s1); try reflexivity.
  apply (HX_resolve W force (pend s) s s1 l1 H); [|exact R]. intros u Iu. exact (proj2 (iv_pend _ I u Iu)).
Qed.
Lemma failed_free s a p : SafeX None s -> getp s a = Some p -> ~ In a (pa s) -> ~ is_loaded p -> p_lib p = None.
Proof. intros SF G NP NL. destruct (p_lib p) eqn:L; [exfalso|reflexivity]. destruct (sf_held _ _ SF a p G) as [C|[[_ C]|C]]; [congruence|discriminate|contradiction|contradiction]. Qed.
Lemma HX_UnloadAll W cs : forall fuel s s' b, Inv s -> St s -> SafeX None s -> HX W None s -> (forall a, In a (plugins s) -> ~ In a (pa s)) -> UnloadAll fuel s cs = Some (Some (s', b)) -> HX W None s'.
Proof.
  induction fuel as [|f IH]; intros s s' b I ST SF H NP E; cbn [UnloadAll] in E; destruct (plugins s) as [|a l] eqn:P; try discriminate; try (injection E as <- _; exact H).
  assert (Ia : In a (plugins s)) by (rewrite P; left; reflexivity). destruct (_Unload_ok s a true (cs a) I ST SF Ia) as (s1 & r & E1 & S1 & NP1); [apply NP; left; reflexivity|]. rewrite E1 in E.
  destruct (_Unload_spec _ _ _ _ _ _ I Ia E1) as (I1 & _ & _ & _ & P2 & K & _ & Bt). rewrite (Bt eq_refl) in P2. destruct P2 as (l1 & l2 & P2a & P2b).
  pose proof (iv_nodup _ I) as ND. rewrite P2a in ND. destruct (NoDup_mid _ _ _ ND) as [_ NI]. 
  assert (J : forall b, In b (plugins s1) -> In b (plugins s) /\ b <> a).
  { intros d Id. rewrite P2b in Id. split; [rewrite P2a; apply in_mid; exact Id|intros ->; contradiction]. }
  destruct (UnloadAll f s1 cs) as [[[s2 b2]|]|] eqn:L; try discriminate. injection E as <- _. apply (IH s1 s2 b2); auto.
  - intros d p Id G. destruct (J d Id) as [Ib0 _]. destruct (iv_get _ I d Ib0) as (p0 & G0). destruct (K d p0 Id G0) as (p1 & G1 & V). assert (p1 = p) by congruence. subst p1. rewrite (vw_status _ _ V). exact (ST d p0 Ib0 G0).
  - apply (HX__Unload W s a true (cs a) s1 r I SF H Ia); [|intros p G NL; right; apply (failed_free s a p SF G); [apply NP; left; reflexivity|exact NL]|exact E1]. intros _ p _ _ C. rewrite orb_true_r in C. discriminate.
  - intros d Id C. destruct (J d Id) as [Ib0 N]. rewrite P in Ib0. destruct (NP1 d C) as [C'|C']; [exact (NP d Ib0 C')|contradiction].
Qed.
Lemma HX_sub W s l : HX W None s -> (forall b, In b l -> In b (plugins s)) -> (forall b p, In b (plugins s) -> ~ In b l -> getp s b = Some p -> ~ is_loaded p) -> HX W None (set_plugins l s).
Proof.
  intros [T O] J D. split; [intros a p Ia; apply T; apply J; exact Ia|]. intros k Ik. destruct (O k Ik) as (p & Io & G & P & [C|[Q1 Q2]]); [discriminate|]. exists p. split; [|auto]. cbn. destruct (in_dec Nat.eq_dec (h_owner k) l) as [y|n]; [exact y|]. exfalso. exact (D _ p Io n G Q1).
Qed.

Theorem HX_step (W : Prop) s o s' r : Good s -> SafeX None s -> allowed s o -> (W -> silent_op s o) -> (match o with ORetry _ _ _ => r <> RBool true | _ => True end) ->
  HX W None s -> step s o = Some (s', r) -> HX W None s'.
Proof.
  intros GS SF AL SIL NR H E. pose proof GS as (I & ST & _). destruct o; cbn [step allowed silent_op] in *.
  - destruct AL as [NU FR]. unfold Load in E. destruct (load_scan _ _ _) as [[[l al] e]|] eqn:L; [|discriminate]. destruct (load_scan_spec _ _ _ _ _ _ L) as (J & N & DR & _ & _).
    assert (H1 : HX W None (set_plugins l s)).
    { apply HX_sub; [exact H|exact J|]. intros b p Ib NI G LD. destruct (DR b Ib NI) as (p' & x & G' & X & Lx & _). assert (p' = p) by congruence. subst p'. apply (loaded_is p x X) in LD. congruence. }
    assert (GS1 : Good (set_plugins l s)) by (apply Good_sub; auto; apply N, GS). destruct GS1 as (I1 & _).
    destruct e as [id|]; [injection E as <- _; exact H1|]. destruct (_Load _ _ _) as [[s1 a]|] eqn:L1; [|discriminate]. pose proof (HX__Load W _ _ _ _ _ I1 H1 L1) as H2. destruct (getp s1 a); [|discriminate]. destruct (iter_plevent _ _ _) as [s2|] eqn:It; [|discriminate]. injection E as <- _. cbn [fst].
    pose proof (iter_hooks _ _ _ _ It) as HK. apply iter_same in It. apply (HX_same W None s1); [exact It|rewrite HK; auto|exact H2].
  - unfold Unload in E. destruct (find_id _ _ _) as [[a|]|] eqn:Fd; try discriminate; [|injection E as <- _; exact H]. apply find_id_spec in Fd. destruct Fd as (Ia & p & G & Eid). rewrite G in E. destruct (_Unload _ _ _ _) as [[s1 b]|] eqn:K; [|discriminate].
    assert (H1 : HX W None s1).
    { apply (HX__Unload W s a force c s1 b I SF H Ia); [|intros q Gq NL; right; apply (failed_free s a q SF Gq); [apply (AL a p Ia G Eid)|exact NL]|exact K]. intros w q Gq P OF. apply (SIL w q); auto; [apply listed_in; eauto|congruence]. }
    destruct b; [|injection E as <- _; exact H1]. destruct (iter_plevent _ _ _) as [s2|] eqn:It; [|discriminate]. injection E as <- _. cbn [fst]. pose proof (iter_hooks _ _ _ _ It) as HK. apply iter_same in It. apply (HX_same W None s1); [exact It|rewrite HK; auto|exact H1].
  - unfold Pause, _Pause in E. destruct (find_id _ _ _) as [[a|]|] eqn:Fd; try discriminate; [|injection E as <- _; exact H]. apply find_id_spec in Fd. destruct Fd as (Ia & p & G & Eid). rewrite G in E. destruct (p_status p) as [x|] eqn:X; [|discriminate]. destruct x; try (injection E as <- _; exact H). destruct (p_api p); [|injection E as <- _; exact H].
    assert (LD : is_loaded p) by (left; exact X). pose proof (hx_told _ _ _ H a p Ia G LD) as TL.
    destruct (call_plugin _ _ _ _) as [s1|] eqn:K; [|discriminate]. destruct (snd c).
    + pose proof (HX_call W (Some a) s a _ _ s1 p (HX_enter W s a H) Ia G TL (or_introl eq_refl) K) as H1. apply call_plugin_same in K. destruct (same_getp _ _ _ _ K G) as (p1 & G1 & C1). rewrite G1 in E. destruct (getp (setp _ a _) a); [|discriminate]. destruct (iter_plevent _ _ _) as [s2|] eqn:It; [|discriminate]. injection E as <- _. cbn [fst].
      pose proof (iter_hooks _ _ _ _ It) as HK. apply iter_same in It. eapply (HX_same W None); [exact It|rewrite HK; auto|]. apply HX_pause; auto; [exact (Inv_frame _ _ (same_frame _ _ K) I)|rewrite <- (sm_plugins _ _ K); exact Ia|rewrite (core_told _ _ C1), (core_id _ _ C1); exact TL|split; auto].
    + injection E as <- _. cbn [fst]. refine (HX_call W None s a _ _ s1 p H Ia G TL _ K). right. split; [exact LD|]. intros _ C. congruence.
  - unfold Unpause, _Unpause in E. destruct (find_id _ _ _) as [[a|]|] eqn:Fd; try discriminate; [|injection E as <- _; exact H]. apply find_id_spec in Fd. destruct Fd as (Ia & p & G & Eid). rewrite G in E. destruct (p_status p) as [x|] eqn:X; [|discriminate]. destruct x; try (injection E as <- _; exact H). destruct (p_api p); [|injection E as <- _; exact H].
    assert (LD : is_loaded p) by (right; exact X). pose proof (hx_told _ _ _ H a p Ia G LD) as TL.
    destruct (call_plugin _ _ _ _) as [s1|] eqn:K; [|discriminate]. destruct (snd c).
    + pose proof (HX_call W (Some a) s a _ _ s1 p (HX_enter W s a H) Ia G TL (or_introl eq_refl) K) as H1. apply call_plugin_same in K. destruct (same_getp _ _ _ _ K G) as (p1 & G1 & C1). rewrite G1 in E. destruct (getp (setp _ a _) a); [|discriminate]. destruct (iter_plevent _ _ _) as [s2|] eqn:It; [|discriminate]. injection E as <- _. cbn [fst].
      pose proof (iter_hooks _ _ _ _ It) as HK. apply iter_same in It. eapply (HX_same W None); [exact It|rewrite HK; auto|]. apply HX_pause; auto; [exact (Inv_frame _ _ (same_frame _ _ K) I)|rewrite <- (sm_plugins _ _ K); exact Ia|rewrite (core_told _ _ C1), (core_id _ _ C1); exact TL|split; discriminate].
    + injection E as <- _. cbn [fst]. refine (HX_call W None s a _ _ s1 p H Ia G TL _ K). right. split; [exact LD|]. intros w _. exact (SIL w eq_refl).
  - destruct AL as (NU & FR & D0 & NP). unfold Retry in E. destruct (find_id _ _ _) as [[a|]|] eqn:Fd; try discriminate; [|injection E as <- _; exact H]. apply find_id_spec in Fd. destruct Fd as (Ia & p & G & Eid). rewrite G in E. destruct (p_status p) as [x|]; [|discriminate]. destruct (loaded x); [injection E as <- _; exact H|].
    destruct (_Load_ok s (p_file p) li I ST SF NU (fresh_in s li FR)) as (s1 & b & L & S1 & P0 & _). rewrite L in E. specialize (P0 D0).
    pose proof (HX__Load W _ _ _ _ _ I H L) as H1. destruct (_Load_spec _ _ _ _ _ I L) as (Eb & I1 & P1 & _ & _ & _ & _ & q & y & G1 & _ & _ & Y). rewrite G1, Y in E.
    destruct (loaded y) eqn:Ly.
    + exfalso. destruct (_Unload _ _ _ _) as [[s2 b2]|]; [|discriminate]. destruct (getp s2 b); [|discriminate]. injection E as _ <-. apply NR. reflexivity.
    + destruct (_Unload _ _ _ _) as [[s2 b2]|] eqn:K; [|discriminate]. injection E as <- _. cbn [fst]. apply (HX_eq W None s2); try reflexivity.
      assert (NL : ~ is_loaded q) by (intros C; apply (loaded_is q y Y) in C; congruence).
      apply (HX__Unload W s1 b true c s2 b2 I1 S1 H1); [rewrite P1; apply in_or_app; right; left; reflexivity| | |exact K].
      * intros _ r0 Gr P _. exfalso. apply NL. right. congruence.
      * intros r0 Gr NLr. right. apply (failed_free s1 b r0 S1 Gr); [|exact NLr]. rewrite P0. intros C. apply in_map_iff in C. destruct C as (u & Eu & Iu). destruct (iv_pend _ I u Iu). lia.
  - destruct (UnloadAll _ _ _) as [[[s1 b]|]|] eqn:K; try discriminate. injection E as <- _. cbn [fst]. exact (HX_UnloadAll W cs _ s s1 b I ST SF H AL K).
  - unfold SetAllLoaded in E. destruct (allloaded s); [injection E as <- _; exact H|]. destruct (all_loop _ _ _) as [s1|] eqn:K; [|discriminate]. injection E as <- _. cbn [fst]. apply (HX_all_loop W cs (plugins s) (set_allloaded true s)); auto. apply (HX_eq W None s); auto.
  - destruct (existsb (Nat.eqb a) (plugins s)) eqn:X; [|injection E as <- _; exact H]. apply existsb_exists in X. destruct X as (b & Ia & Eb). apply Nat.eqb_eq in Eb. subst b. destruct (getp s a) as [p|] eqn:G; [|discriminate]. destruct (p_status p) as [x|] eqn:X; [|discriminate]. destruct (loaded x) eqn:Lx; [|injection E as <- _; exact H]. apply (loaded_is p x X) in Lx.
    destruct (run_acts _ _ _) as [s1|] eqn:K; [|discriminate]. injection E as <- _.
    destruct (run_acts_hooks a acts s s1 p G K) as [A1 A2]. apply run_acts_same in K. pose proof (hx_told _ _ _ H a p Ia G Lx) as TL. rewrite TL in A1. pose proof H as [T O].
      destruct (HX_same W None s (set_hooks (hooks s) s1)) as [T' O']; [eapply same_trans; [exact K|apply same_hooks]|auto|exact H|].
      split; [exact T'|]. intros k Ik. destruct (A1 k Ik) as [J|(J1 & J2 & J3)]; [exact (O' k J)|].
      destruct (same_getp _ _ _ _ K G) as (p' & G' & C). exists p'. rewrite J1, <- (sm_plugins _ _ K), (core_id _ _ C). split; [exact Ia|]. split; [exact G'|]. split; [exact J2|]. right. unfold is_loaded. rewrite (core_status _ _ C). split; [exact Lx|]. intros w. split; [congruence|]. intros P.
      specialize (A2 (SIL w p eq_refl P) k Ik). destruct (O k A2) as (p0 & _ & G0 & _ & [C0|[_ Q]]); rewrite J1 in *; [discriminate|]. assert (p0 = p) by congruence. subst p0. exact (proj2 (Q w) P).
  - injection E as <- _. cbn [fst]. apply (HX_eq W None s); auto.
  - destruct (depth s) as [|n]; [injection E as <- _; exact H|]. assert (H1 : HX W None (set_depth n s)) by (apply (HX_eq W None s); auto). destruct n; [|injection E as <- _; exact H1].
    destruct (resolve_pending _ _) as [s1|] eqn:R; [|discriminate]. injection E as <- _. cbn [fst]. destruct (Good_eq s (set_depth 0 s) eq_refl eq_refl eq_refl eq_refl GS) as [(I1 & _) _]. exact (HX_resolve_pending W false _ _ I1 H1 R).
  - destruct (resolve_pending _ _) as [s1|] eqn:R; [|discriminate]. injection E as <- _. cbn [fst]. exact (HX_resolve_pending W true _ _ I H R).
Qed.
