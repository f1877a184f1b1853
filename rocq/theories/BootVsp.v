(** The start as server plugin. *)
From Coq Require Import List ZArith Bool Lia.
From Verif Require Import BootModel BootSpec BootProofs.
Import ListNotations.
Local Open Scope nat_scope.
Notation length := List.length.

Definition b2n (b : bool) : nat := if b then 1 else 0.

(** what holds whatever plugins ask for; [w] says whether plugins were loaded, [n] counts the level
    ends *)
Record inv_v (cb : nat) (v : Z) (w : bool) (n : nat) (s : st) : Prop := mk_v {
  v_dll : gamedll s = false;
  v_bridged : bridged s = true;
  v_were : were s = w;
  v_n : w = false -> n = 0;
  v_ginit : ginit s = existsb is_started (trace s);
  v_initial : count is_initial (trace s) = b2n w;
  v_all : all s = w;
  v_all1 : count is_all (trace s) = b2n w;
  v_command : count is_command (trace s) = 0;
  v_head : exists t, trace s = Listening cb v :: t /\ count is_listening t = 0;
  v_end : count is_end (trace s) = n;
  v_first : first s = (n =? 0);
  v_refresh : count is_refresh (trace s) = n - 1;
  v_order1 : before is_initial is_refresh (trace s);
  v_order2 : before is_initial is_all (trace s);
  v_info : GetVSPInfo s = announced (trace s) None 0%Z
}.

Ltac head := match goal with H : exists t, _ |- exists t, _ =>
  let t := fresh "t" in let E := fresh "E" in let C := fresh "C" in
  destruct H as (t & E & C); rewrite E; eexists; split; [reflexivity|]; snoc; assumption end.

(** any event but the ones that are counted can be appended *)
Lemma emit_v : forall cb v w n s e,
  is_initial e = false -> is_all e = false -> is_command e = false -> is_listening e = false ->
  is_end e = false -> is_refresh e = false -> is_started e = false ->
  inv_v cb v w n s -> inv_v cb v w n (emit s e).
Proof.
  intros cb v w n s e E1 E2 E3 E4 E5 E6 E7 [a b c vn d f g h i j k l m o p q].
  split; fields; rewrite ?count_snoc, ?exists_snoc, ?announced_snoc, ?E1, ?E2, ?E3, ?E4, ?E5, ?E6, ?E7,
    ?orb_false_r, ?Nat.add_0_r; auto.
  - destruct j as (t & -> & C). exists (t ++ [e]). split; [reflexivity|].
    rewrite count_snoc, E4, C. reflexivity.
  - apply before_snoc; [assumption|]. intros X. congruence.
  - apply before_snoc; [assumption|]. intros X. congruence.
  - destruct e; try discriminate; exact q.
Qed.

Lemma requested_v : forall cb v w n s x, inv_v cb v w n s -> inv_v cb v w n (set_requested s x).
Proof. intros cb v w n s x [a b c vn d f g h i j k l m o p q]. split; assumption. Qed.

Lemma enable_v : forall cb v w n s, inv_v cb v w n s -> inv_v cb v w n (EnableVSPListener s).
Proof.
  intros cb v w n s I. unfold EnableVSPListener, InitializeVSP.
  apply requested_v. change (bridged (emit s Request)) with (bridged s).
  rewrite (v_bridged _ _ _ _ _ I).
  assert (J : inv_v cb v w n (emit s Request)) by (apply emit_v; auto).
  destruct (ginit (emit s Request) && negb (requested (emit s Request))); exact J.
Qed.

Lemma plugins_v : forall cb v w n asks s, inv_v cb v w n s -> inv_v cb v w n (plugins asks s).
Proof. intros cb v w n [|] s I; [apply enable_v; exact I|exact I]. Qed.

(** the initial loads *)
Record mid (cb : nat) (v : Z) (n : nat) (s : st) : Prop := mk_mid {
  m_dll : gamedll s = false;
  m_bridged : bridged s = true;
  m_ginit : ginit s = existsb is_started (trace s);
  m_initial : count is_initial (trace s) = 1;
  m_all : all s = false;
  m_all1 : count is_all (trace s) = 0;
  m_command : count is_command (trace s) = 0;
  m_head : exists t, trace s = Listening cb v :: t /\ count is_listening t = 0;
  m_end : count is_end (trace s) = n;
  m_first : first s = (n =? 0);
  m_refresh : count is_refresh (trace s) = n - 1;
  m_order1 : before is_initial is_refresh (trace s);
  m_order2 : before is_initial is_all (trace s);
  m_info : GetVSPInfo s = announced (trace s) None 0%Z
}.

Lemma mid_initial : forall cb v n s, inv_v cb v false n s -> mid cb v n (emit s Initial).
Proof.
  intros cb v n s [a b c vn d f g h i j k l m o p q].
  split; fields; snoc; auto; try discriminate; try (apply before_snoc; [assumption|discriminate]).
  - rewrite f. reflexivity.
  - head.
Qed.

Lemma mid_enable : forall cb v n s, mid cb v n s -> mid cb v n (EnableVSPListener s).
Proof.
  intros cb v n s [a b d f g h i j k l m o p q].
  unfold EnableVSPListener, InitializeVSP. change (bridged (emit s Request)) with (bridged s). rewrite b.
  replace (if ginit (emit s Request) && negb (requested (emit s Request)) then emit s Request else emit s Request)
    with (emit s Request) by (destruct (ginit (emit s Request) && negb (requested (emit s Request))); reflexivity).
  split; fields; snoc; auto; try discriminate; try (apply before_snoc; [assumption|discriminate]); head.
Qed.

Lemma mid_all : forall cb v n asks s, mid cb v n s ->
  inv_v cb v true n (set_were (SetAllLoaded asks s) true).
Proof.
  intros cb v n asks s [a b d f g h i j k l m o p q]. unfold SetAllLoaded. rewrite g.
  assert (J : inv_v cb v true n (set_were (emit (set_all s true) AllLoaded) true)).
  { split; fields; snoc; auto; try discriminate; try (apply before_snoc; [assumption|discriminate]).
    - rewrite h. reflexivity.
    - head.
    - apply before_snoc; [assumption|]. intros _. unfold has. rewrite exists_count, f. reflexivity. }
  destruct asks; cbn [plugins]; [|exact J].
  apply enable_v in J. unfold EnableVSPListener, InitializeVSP in J |- *.
  cbn [ginit requested bridged set_were emit set_all] in J |- *. rewrite b in *.
  destruct (ginit s && negb (requested s)); exact J.
Qed.

Lemma loads_v : forall cb v n a1 a2 s, inv_v cb v false n s ->
  inv_v cb v true n (set_were (SetAllLoaded a2 (DoInitialPluginLoads a1 s)) true).
Proof.
  intros cb v n a1 a2 s I. apply mid_all. unfold DoInitialPluginLoads.
  pose proof (mid_initial _ _ _ _ I) as M. destruct a1; cbn [plugins]; [apply mid_enable|]; exact M.
Qed.

Lemma step_v : forall cb v w n s o, inv_v cb v w n s -> vsp_ops o ->
  exists w' n', inv_v cb v w' n' (step s o) /\
    w' = (w || match o with OnGameInit _ _ => negb (ginit s) | OnLevelShutdown _ _ _ => true | _ => false end) /\
    n' = (n + match o with OnLevelShutdown _ _ _ => 1 | _ => 0 end) /\
    ginit (step s o) = (ginit s || match o with OnGameInit _ _ => true | _ => false end).
Proof.
  intros cb v w n s o I V. destruct o as [x|x|al cb' v'|a1 a2| |a1 a2 a3| ]; cbn [step]; try (exfalso; exact V).
  - unfold game_init. destruct (ginit s) eqn:GI.
    + exists w, n. split; [exact I|]. cbn [negb orb]. rewrite orb_false_r, Nat.add_0_r. auto.
    + exists true, n. cbn [negb]. rewrite orb_true_r, Nat.add_0_r. split; [|auto].
      unfold InitializeVSP. rewrite (v_bridged _ _ _ _ _ I).
      replace (if requested s then s else s) with s by (destruct (requested s); reflexivity).
      rewrite (v_bridged _ _ _ _ _ I), (v_were _ _ _ _ _ I). cbn [andb].
      assert (J : forall u, inv_v cb v true n u -> inv_v cb v true n (emit (set_ginit u true) GameStarted)).
      { intros u [a b c vn d f g h i j k l m o p q].
        split; fields; snoc; auto; try discriminate; try (apply before_snoc; [assumption|discriminate]). head. }
      destruct w; cbn [negb]; apply J; [exact I|apply loads_v; exact I].
  - exists w, n. rewrite !orb_false_r, Nat.add_0_r. split; [|auto]. apply emit_v; auto.
  - exists true, (n + 1). rewrite orb_true_r, orb_false_r.
    assert (J : exists u, inv_v cb v true n u /\ ginit u = ginit s /\
      level_shutdown a1 a2 a3 s =
      emit (if negb (first u) then plugins a3 (emit u Refresh) else set_first u false) LevelEnd).
    { unfold level_shutdown. rewrite (v_bridged _ _ _ _ _ I), (v_were _ _ _ _ _ I). cbn [andb].
      destruct w; cbn [negb].
      - exists s. auto.
      - exists (set_first (set_were (SetAllLoaded a2 (DoInitialPluginLoads a1 s)) true) true).
        pose proof (v_n _ _ _ _ _ I eq_refl) as N0. subst n.
        split; [|split; [|reflexivity]].
        + destruct (loads_v cb v 0 a1 a2 s I) as [a b c vn d f g h i j k l m o p q]. split; assumption.
        + unfold SetAllLoaded, DoInitialPluginLoads, plugins, EnableVSPListener, InitializeVSP.
          destruct a1, a2; fields; cbn [andb];
            repeat (match goal with |- context [if ?b then _ else _] => destruct b end; fields); reflexivity. }
    destruct J as (u & U & GU & ->).
    pose proof (v_first _ _ _ _ _ U) as FU.
    split; [|split; [reflexivity|split; [reflexivity|]]].
    + destruct (n =? 0) eqn:N0.
      * apply Nat.eqb_eq in N0. subst n. rewrite FU. cbn [negb].
        destruct U as [a b c vn d f g h i j k l m o p q].
        split; fields; snoc; auto; try discriminate; try (apply before_snoc; [assumption|discriminate]); try lia. head.
      * apply Nat.eqb_neq in N0. rewrite FU. cbn [negb].
        assert (R : forall t, (exists y, t = emit y LevelEnd /\ gamedll y = false /\ bridged y = true /\
            were y = true /\ ginit y = existsb is_started (trace y) /\ count is_initial (trace y) = 1 /\
            all y = true /\ count is_all (trace y) = 1 /\ count is_command (trace y) = 0 /\
            (exists t, trace y = Listening cb v :: t /\ count is_listening t = 0) /\
            count is_end (trace y) = n /\ first y = false /\ count is_refresh (trace y) = n /\
            before is_initial is_refresh (trace y) /\ before is_initial is_all (trace y) /\
            GetVSPInfo y = announced (trace y) None 0%Z) -> inv_v cb v true (n + 1) t).
        { intros t (y & -> & y1 & y2 & y3 & y4 & y5 & y6 & y7 & y8 & y9 & y10 & y11 & y12 & y13 & y14 & y15).
          split; fields; snoc; auto; try discriminate; try (apply before_snoc; [assumption|discriminate]); try lia; try discriminate.
          - head.
          - rewrite y11. symmetry. apply Nat.eqb_neq. lia. }
        apply R. eexists. split; [reflexivity|].
        destruct U as [a b c vn d f g h i j k l m o p q].
        assert (B1 : before is_initial is_refresh (trace u ++ [Refresh])).
        { apply before_snoc; [assumption|]. intros _. unfold has. rewrite exists_count, f. reflexivity. }
        assert (B2 : before is_initial is_all (trace u ++ [Refresh]))
          by (apply before_snoc; [assumption|discriminate]).
        destruct a3; cbn [plugins].
        -- unfold EnableVSPListener, InitializeVSP. fields. rewrite b.
           replace (if ginit u && negb (requested u) then emit (emit u Refresh) Request
                    else emit (emit u Refresh) Request)
             with (emit (emit u Refresh) Request) by (destruct (ginit u && negb (requested u)); reflexivity).
           fields. snoc. repeat split; auto; try (apply before_snoc; [assumption|discriminate]); try lia. head.
        -- fields. snoc. repeat split; auto; try lia. head.
    + fields. rewrite <- GU. destruct (negb (first u)); [|reflexivity].
      destruct a3; cbn [plugins]; [|reflexivity].
      unfold EnableVSPListener, InitializeVSP. fields. destruct (ginit u && negb (requested u)), (bridged u); reflexivity.
  - exists w, n. rewrite !orb_false_r, Nat.add_0_r. split; [apply enable_v; exact I|].
    repeat split. unfold EnableVSPListener, InitializeVSP. fields.
    destruct (ginit s && negb (requested s)), (bridged s); reflexivity.
Qed.

Definition starts (o : op) : bool :=
  match o with OnGameInit _ _ | OnLevelShutdown _ _ _ => true | _ => false end.
Definition ends (o : op) : bool := match o with OnLevelShutdown _ _ _ => true | _ => false end.

Lemma start_v : forall al cb v, inv_v cb v false 0 (step init (VspLoad al cb v)).
Proof.
  intros al cb v.
  assert (B : forall x y, y (Listening cb v) = false -> before x y ([] ++ [Listening cb v])).
  { intros x y E. apply before_snoc; [apply before_nil|]. intros H. congruence. }
  cbn [step negb gamedll init]. unfold NotifyVSPListening.
  destruct (v =? -1)%Z eqn:V; split; try reflexivity;
    try (apply B; reflexivity);
    try (exists []; split; reflexivity);
    unfold GetVSPInfo; cbn; rewrite V; reflexivity.
Qed.

Lemma run_v : forall al cb v l, Forall vsp_ops l ->
  inv_v cb v (existsb starts l) (length (filter ends l)) (run (VspLoad al cb v :: l)).
Proof.
  intros al cb v l F. unfold run. cbn [fold_left].
  (* the second part: a later OnGameInit finds plugins loaded by the first *)
  assert (K : forall w n s, inv_v cb v w n s -> (ginit s = true -> w = true) ->
    inv_v cb v (w || existsb starts l) (n + length (filter ends l)) (fold_left step l s)).
  { clear - F. induction l as [|o l IH]; intros w n s I GW; cbn [fold_left existsb filter].
    - cbn [List.length]. rewrite orb_false_r, Nat.add_0_r. exact I.
    - inversion F as [|? ? V1 V2]; subst.
      destruct (step_v cb v w n s o I V1) as (w' & n' & I' & EW & EN & EG).
      assert (EW' : w' = (w || starts o)).
      { rewrite EW. destruct o; cbn [starts]; try reflexivity.
        destruct (ginit s) eqn:G; [rewrite (GW eq_refl)|]; reflexivity. }
      specialize (IH V2 w' n' (step s o) I').
      replace (w || (starts o || existsb starts l)) with (w' || existsb starts l)
        by (rewrite EW', orb_assoc; reflexivity).
      replace (n + length (if ends o then o :: filter ends l else filter ends l))
        with (n' + length (filter ends l)).
      2:{ rewrite EN. destruct o; cbn [ends List.length]; lia. }
      apply IH. intros G. rewrite EG in G. apply orb_true_iff in G. rewrite EW'.
      destruct G as [G|G]; [rewrite (GW G); reflexivity|].
      destruct o; try discriminate G. cbn [starts]. apply orb_true_r. }
  apply (K false 0 _ (start_v al cb v)).
  assert (E : ginit (step init (VspLoad al cb v)) = false)
    by (cbn [step negb gamedll init]; unfold NotifyVSPListening; destruct (v =? -1)%Z; reflexivity).
  intros G. congruence.
Qed.
