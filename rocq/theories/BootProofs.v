(** Proofs about the start of the core. *)
From Coq Require Import List ZArith Bool Lia.
From Verif Require Import BootModel BootSpec.
Import ListNotations.
Local Open Scope nat_scope.
Notation length := List.length.

Lemma count_snoc : forall k t e, count k (t ++ [e]) = count k t + (if k e then 1 else 0).
Proof.
  intros k t e. unfold count. rewrite filter_app, app_length. cbn [filter].
  destruct (k e); reflexivity.
Qed.

Lemma exists_snoc : forall (k : ev -> bool) t e, existsb k (t ++ [e]) = existsb k t || k e.
Proof. intros k t e. rewrite existsb_app. cbn [existsb]. rewrite orb_false_r. reflexivity. Qed.

Lemma exists_count : forall k t, existsb k t = negb (count k t =? 0).
Proof.
  intros k t. unfold count. induction t as [|e t IH]; [reflexivity|].
  cbn [existsb filter]. destruct (k e); [reflexivity|exact IH].
Qed.

Lemma before_nil : forall a b, before a b [].
Proof. intros a b t1 e t2 E. destruct t1; discriminate E. Qed.

Lemma before_snoc : forall a b t e, before a b t -> (b e = true -> has a t) -> before a b (t ++ [e]).
Proof.
  intros a b t e B H t1 x t2 E Bx.
  destruct t2 as [|y t2 _] using rev_ind.
  - apply app_inj_tail in E. destruct E as [-> ->]. apply H. exact Bx.
  - rewrite app_comm_cons, app_assoc in E. apply app_inj_tail in E. destruct E as [-> _].
    eapply B; eauto.
Qed.

Lemma announced_snoc : forall t cb v e,
  announced (t ++ [e]) cb v =
  match e with
  | Listening c w => (Some c, if (w =? -1)%Z then snd (announced t cb v) else w)
  | _ => announced t cb v
  end.
Proof.
  induction t as [|x t IH]; intros cb v e.
  - cbn [app announced]. destruct e; reflexivity.
  - cbn [app]. destruct x; cbn [announced]; apply IH.
Qed.

(** a second call of EnableVSPListener in a row only leaves its mark *)
Lemma enable_twice : forall s,
  EnableVSPListener (EnableVSPListener s) = emit (EnableVSPListener s) Request.
Proof.
  intros s. unfold EnableVSPListener at 1.
  assert (R : requested (EnableVSPListener s) = true) by reflexivity.
  cbn [ginit requested emit set_requested]. rewrite R. rewrite andb_false_r.
  unfold set_requested, emit. rewrite R. reflexivity.
Qed.

(** ** Loaded as game library *)

Record inv_g (s : st) : Prop := mk_g {
  g_dll : gamedll s = true;
  g_bridged : bridged s = existsb is_listening (trace s);
  g_were : bridged s = true -> were s = true;
  g_requested : requested s = existsb is_request (trace s);
  g_ginit : ginit s = existsb is_started (trace s);
  g_initial : count is_initial (trace s) = 1;
  g_command : count is_command (trace s) <= 1;
  g_command1 : existsb is_command (trace s) = true -> requested s = true /\ ginit s = true;
  g_command2 : requested s = true -> ginit s = true ->
                 existsb is_command (trace s) = true \/ bridged s = true;
  g_silent : before is_request is_command (trace s);
  g_first : first s = (count is_end (trace s) =? 0);
  g_refresh : count is_refresh (trace s) = count is_end (trace s) - 1;
  g_all : all s = existsb is_all (trace s);
  g_all1 : count is_all (trace s) <= 1;
  g_order1 : before is_initial is_refresh (trace s);
  g_order2 : before is_initial is_all (trace s);
  g_info : GetVSPInfo s = announced (trace s) None 0%Z
}.

Ltac snoc := rewrite ?count_snoc, ?exists_snoc, ?announced_snoc;
  cbn [is_initial is_refresh is_all is_request is_command is_listening is_started is_end];
  rewrite ?orb_false_r, ?orb_true_r, ?Nat.add_0_r.

Ltac fields := cbn [gamedll bridged were first ginit requested all cbs vver trace
  set_gamedll set_bridged set_were set_first set_ginit set_requested set_all set_cbs set_vver emit].

Lemma no_command : forall s, inv_g s -> requested s = false \/ ginit s = false -> count is_command (trace s) = 0.
Proof.
  intros s G H. pose proof (g_command1 s G) as C. rewrite exists_count in C.
  destruct (count is_command (trace s) =? 0) eqn:E; [apply Nat.eqb_eq; exact E|].
  destruct (C eq_refl) as [C1 C2]. destruct H; congruence.
Qed.

Lemma enable_g : forall s, inv_g s -> inv_g (EnableVSPListener s).
Proof.
  intros s G. pose proof G as [a b c d e f g h i j k l m n o p q].
  unfold EnableVSPListener, InitializeVSP. fields.
  destruct (ginit s) eqn:GI; cbn [andb].
  2:{ split; fields; snoc; auto; try congruence; try (apply before_snoc; [assumption|discriminate]).
      intros C. destruct (h C); congruence. }
  destruct (requested s) eqn:RQ; cbn [negb].
  { split; fields; snoc; auto; try congruence; try (apply before_snoc; [assumption|discriminate]). }
  pose proof (no_command s G (or_introl RQ)) as NC.
  destruct (bridged s) eqn:BR.
  { split; fields; snoc; auto; try congruence; try (apply before_snoc; [assumption|discriminate]). }
  split; fields; snoc; auto; try congruence; try lia;
    try (apply before_snoc; [apply before_snoc; [assumption|discriminate]|discriminate]).
  apply before_snoc; [apply before_snoc; [assumption|discriminate]|].
  intros _. unfold has. snoc. reflexivity.
Qed.

Lemma plugins_g : forall asks s, inv_g s -> inv_g (plugins asks s).
Proof. intros [|] s G; [apply enable_g; exact G|exact G]. Qed.

Lemma all_g : forall asks s, inv_g s -> inv_g (SetAllLoaded asks s).
Proof.
  intros asks s G. unfold SetAllLoaded. destruct (all s) eqn:A; [exact G|]. apply plugins_g.
  pose proof G as [a b c d e f g h i j k l m n o p q].
  assert (Z : count is_all (trace s) = 0).
  { rewrite A, exists_count in m. destruct (count is_all (trace s)); [reflexivity|discriminate m]. }
  split; fields; snoc; auto; try lia; try (apply before_snoc; [assumption|discriminate]).
  apply before_snoc; [assumption|]. intros _. unfold has. rewrite exists_count, f. reflexivity.
Qed.

Lemma bridged_initial : forall s, inv_g s -> (bridged s && negb (were s)) = false.
Proof.
  intros s G. destruct (bridged s) eqn:B; [|reflexivity]. rewrite (g_were s G B). reflexivity.
Qed.

Lemma step_g : forall s o, inv_g s -> no_start o -> inv_g (step s o).
Proof.
  intros s o G N. pose proof G as [a b c d e f g h i j k l m n oo p q].
  destruct o as [x|x|al cb v|a1 a2| |a1 a2 a3| ]; cbn [step]; try (exfalso; exact N).
  - apply all_g. exact G.
  - rewrite a. cbn [negb]. unfold NotifyVSPListening.
    assert (GP : forall t, gamedll (plugins al t) = gamedll t).
    { intros t. destruct al; [|reflexivity]. cbn [plugins]. unfold EnableVSPListener, InitializeVSP. fields.
      destruct (ginit t && negb (requested t)), (bridged t); reflexivity. }
    assert (GG : forall t, gamedll t = true ->
      (if gamedll (plugins al t) then set_were (set_bridged (plugins al t) true) true else plugins al t) =
      set_were (set_bridged (plugins al t) true) true)
      by (intros t T; rewrite GP, T; reflexivity).
    assert (V : forall s', s' = s \/ s' = set_vver s v ->
      (v = (-1)%Z -> s' = s) -> (v <> (-1)%Z -> s' = set_vver s v) ->
      inv_g (set_were (set_bridged (plugins al (emit (set_cbs s' (Some cb)) (Listening cb v))) true) true)).
    { intros s' _ D1 D2.
      assert (IV : announced (trace s ++ [Listening cb v]) None 0%Z = (Some cb, vver s')).
      { snoc. rewrite <- q. unfold GetVSPInfo. cbn [snd]. destruct (v =? -1)%Z eqn:E.
        - apply Z.eqb_eq in E. rewrite (D1 E). reflexivity.
        - apply Z.eqb_neq in E. rewrite (D2 E). reflexivity. }
      assert (FS : gamedll s' = true /\ bridged s' = bridged s /\ were s' = were s /\ first s' = first s /\
                   ginit s' = ginit s /\ requested s' = requested s /\ all s' = all s /\ trace s' = trace s).
      { destruct (Z.eq_dec v (-1)) as [E|E]; [rewrite (D1 E)|rewrite (D2 E)]; repeat split; exact a. }
      destruct FS as (f1 & f2 & f3 & f4 & f5 & f6 & f7 & f8).
      rewrite announced_snoc in IV. clear D1 D2 GP GG.
      destruct al; cbn [plugins].
      - unfold EnableVSPListener, InitializeVSP. fields. rewrite f5, f6, f2.
        destruct (ginit s) eqn:GI; cbn [andb].
        2:{ split; unfold GetVSPInfo; fields; rewrite ?f3, ?f4, ?f5, ?f6, ?f7, ?f8; snoc; auto; try (symmetry; assumption);
              try (apply before_snoc; [apply before_snoc; [assumption|discriminate]|discriminate]);
              try (rewrite IV; reflexivity).
            intros C. destruct (h C); congruence. }
        destruct (requested s) eqn:RQ; cbn [negb].
        { split; unfold GetVSPInfo; fields; rewrite ?f3, ?f4, ?f5, ?f6, ?f7, ?f8; snoc; auto; try (symmetry; assumption);
              try (apply before_snoc; [apply before_snoc; [assumption|discriminate]|discriminate]);
              try (rewrite IV; reflexivity). }
        pose proof (no_command s G (or_introl RQ)) as NC.
        destruct (bridged s) eqn:BR.
        { split; unfold GetVSPInfo; fields; rewrite ?f3, ?f4, ?f5, ?f6, ?f7, ?f8; snoc; auto; try (symmetry; assumption);
              try (apply before_snoc; [apply before_snoc; [assumption|discriminate]|discriminate]);
              try (rewrite IV; reflexivity). }
        split; unfold GetVSPInfo; fields; rewrite ?f3, ?f4, ?f5, ?f6, ?f7, ?f8; snoc; auto; try (symmetry; assumption); try lia;
              try (apply before_snoc; [apply before_snoc; [apply before_snoc; [assumption|discriminate]|discriminate]|discriminate]);
              try (rewrite IV; reflexivity).
        apply before_snoc; [apply before_snoc; [apply before_snoc; [assumption|discriminate]|discriminate]|].
        intros _. unfold has. snoc. reflexivity.
      - split; unfold GetVSPInfo; fields; rewrite ?f3, ?f4, ?f5, ?f6, ?f7, ?f8; snoc; auto; try (symmetry; assumption);
          try (apply before_snoc; [assumption|discriminate]);
          try (rewrite IV; reflexivity). }
    destruct (v =? -1)%Z eqn:VE; (rewrite GG by (fields; exact a)); apply V; auto;
      intros; exfalso; (apply Z.eqb_eq in VE || apply Z.eqb_neq in VE); congruence.
  - unfold game_init. destruct (ginit s) eqn:GI; [exact G|].
    pose proof (no_command s G (or_intror GI)) as NC.
    pose proof (bridged_initial s G) as BI.
    unfold InitializeVSP.
    destruct (requested s) eqn:RQ, (bridged s) eqn:BR; fields; rewrite ?BR, ?BI;
      (rewrite BR in BI || idtac); cbn [andb] in *; rewrite ?BI;
      split; fields; snoc; auto; try congruence; try lia;
      try (apply before_snoc; [assumption|discriminate]);
      try (apply before_snoc; [apply before_snoc; [assumption|discriminate]|discriminate]).
    all: try (intros C; destruct (h C); congruence).
    all: try (apply before_snoc; [apply before_snoc; [assumption|]|discriminate]; intros _; unfold has; congruence).
  - split; fields; snoc; auto; try (apply before_snoc; [assumption|discriminate]).
  - unfold level_shutdown. rewrite (bridged_initial s G).
    destruct (first s) eqn:F; cbn [negb].
    + symmetry in k. apply Nat.eqb_eq in k.
      split; fields; snoc; auto; try lia; try (apply before_snoc; [assumption|discriminate]).
      symmetry. apply Nat.eqb_neq. lia.
    + symmetry in k. apply Nat.eqb_neq in k.
      (* the refresh and the end of the level, with the plugins' requests between *)
      set (s1 := emit s Refresh).
      assert (W : forall t, (t = s1 \/ t = EnableVSPListener s1) -> inv_g (emit t LevelEnd)).
      { intros t T.
        assert (Q : gamedll t = true /\ bridged t = existsb is_listening (trace t) /\
          (bridged t = true -> were t = true) /\ requested t = existsb is_request (trace t) /\
          ginit t = existsb is_started (trace t) /\ count is_initial (trace t) = 1 /\
          count is_command (trace t) <= 1 /\
          (existsb is_command (trace t) = true -> requested t = true /\ ginit t = true) /\
          (requested t = true -> ginit t = true -> existsb is_command (trace t) = true \/ bridged t = true) /\
          before is_request is_command (trace t) /\
          first t = false /\ count is_end (trace t) = count is_end (trace s) /\
          count is_refresh (trace t) = S (count is_refresh (trace s)) /\
          all t = existsb is_all (trace t) /\ count is_all (trace t) <= 1 /\
          before is_initial is_refresh (trace t) /\ before is_initial is_all (trace t) /\
          GetVSPInfo t = announced (trace t) None 0%Z).
        { assert (B1 : before is_initial is_refresh (trace s ++ [Refresh])).
          { apply before_snoc; [assumption|]. intros _. unfold has. rewrite exists_count, f. reflexivity. }
          assert (B2 : before is_initial is_all (trace s ++ [Refresh]))
            by (apply before_snoc; [assumption|discriminate]).
          assert (B3 : before is_request is_command (trace s ++ [Refresh]))
            by (apply before_snoc; [assumption|discriminate]).
          destruct T as [->| ->].
          - unfold s1. fields. snoc. repeat split; auto; try lia; try (apply h; assumption).
          - unfold s1, EnableVSPListener, InitializeVSP. fields.
            assert (B4 : before is_initial is_refresh ((trace s ++ [Refresh]) ++ [Request]))
              by (apply before_snoc; [assumption|discriminate]).
            assert (B5 : before is_initial is_all ((trace s ++ [Refresh]) ++ [Request]))
              by (apply before_snoc; [assumption|discriminate]).
            assert (B6 : before is_request is_command ((trace s ++ [Refresh]) ++ [Request]))
              by (apply before_snoc; [assumption|discriminate]).
            destruct (ginit s) eqn:GI; cbn [andb].
            2:{ fields. snoc. repeat split; auto; try lia; try congruence. destruct (h H); congruence. }
            destruct (requested s) eqn:RQ; cbn [negb].
            { fields. snoc. repeat split; auto; try lia; try congruence. }
            pose proof (no_command s G (or_introl RQ)) as NC.
            destruct (bridged s) eqn:BR.
            { fields. snoc. repeat split; auto; try lia; try congruence. }
            fields. snoc. repeat split; auto; try lia; try congruence;
              try (apply before_snoc; [assumption|discriminate]).
            apply before_snoc; [assumption|]. intros _. unfold has. snoc. reflexivity. }
        destruct Q as (q1 & q2 & q3 & q4 & q5 & q6 & q7 & q8 & q9 & q10 & q11 & q12 & q13 & q14 & q15 & q16 & q17 & q18).
        split; fields; snoc; auto; try (apply before_snoc; [assumption|discriminate]).
        - rewrite q11. symmetry. apply Nat.eqb_neq. lia.
        - rewrite q12, q13, l. lia. }
      destruct a3; cbn [plugins]; apply W; auto.
  - apply enable_g. exact G.
Qed.

Lemma start_g : forall a, inv_g (step init (DLLInit_Pre a)).
Proof.
  intros a.
  assert (B1 : forall x y, y Initial = false -> before x y ([] ++ [Initial])).
  { intros x y E. apply before_snoc; [apply before_nil|]. intros H. congruence. }
  assert (B2 : forall x y, y Initial = false -> y Request = false -> before x y ([Initial] ++ [Request])).
  { intros x y E1 E2. apply before_snoc; [apply (B1 x y E1)|]. intros H. congruence. }
  destruct a; split; try reflexivity; try discriminate;
    try (vm_compute; lia); first [apply B2; reflexivity|apply B1; reflexivity].
Qed.

Lemma run_g : forall l, as_gamedll l -> inv_g (run l).
Proof.
  intros l (a & l' & -> & F). unfold run. cbn [fold_left].
  assert (G := start_g a). revert G. generalize (step init (DLLInit_Pre a)).
  induction l' as [|o l' IH]; intros s G; cbn [fold_left]; [exact G|].
  inversion F; subst. apply IH; auto. apply step_g; auto.
Qed.

(** ** m_AllLoaded is never taken back *)

Lemma enable_all : forall s, all (EnableVSPListener s) = all s.
Proof.
  intros s. unfold EnableVSPListener, InitializeVSP. fields.
  destruct (ginit s && negb (requested s)), (bridged s); reflexivity.
Qed.
Lemma plugins_all : forall a s, all (plugins a s) = all s.
Proof. intros [|] s; [apply enable_all|reflexivity]. Qed.
Lemma set_all_all : forall a s, all (SetAllLoaded a s) = true.
Proof.
  intros a s. unfold SetAllLoaded. destruct (all s) eqn:E; [exact E|]. rewrite plugins_all. reflexivity.
Qed.
Lemma init_vsp_all : forall s, all (InitializeVSP s) = all s.
Proof. intros s. unfold InitializeVSP. destruct (bridged s); reflexivity. Qed.

Lemma step_all : forall s o, all s = true -> all (step s o) = true.
Proof.
  intros s o H. destruct o as [x|x|al cb v|a1 a2| |a1 a2 a3| ]; cbn [step].
  - unfold mm_StartupMetamod, DoInitialPluginLoads. cbn [negb]. fields. rewrite plugins_all. exact H.
  - apply set_all_all.
  - unfold mm_StartupMetamod, NotifyVSPListening. cbn [negb].
    destruct (gamedll s) eqn:G, (v =? -1)%Z; cbn [negb]; fields;
      repeat match goal with |- context [if gamedll ?t then _ else _] => destruct (gamedll t) end;
      fields; rewrite ?plugins_all; exact H.
  - unfold game_init. destruct (ginit s); [exact H|].
    assert (Q : all (if requested s then InitializeVSP s else s) = true)
      by (destruct (requested s); [rewrite init_vsp_all|]; exact H).
    set (u := if requested s then InitializeVSP s else s) in *.
    destruct (bridged u && negb (were u)); fields; [apply set_all_all|exact Q].
  - exact H.
  - unfold level_shutdown.
    set (u := if bridged s && negb (were s) then
      set_first (set_were (SetAllLoaded a2 (DoInitialPluginLoads a1 s)) true) true else s).
    assert (Q : all u = true) by (unfold u; destruct (bridged s && negb (were s)); fields; [apply set_all_all|exact H]).
    destruct (negb (first u)); fields; [rewrite plugins_all|]; exact Q.
  - rewrite enable_all. exact H.
Qed.

Lemma fold_all : forall l s, all s = true -> all (fold_left step l s) = true.
Proof.
  induction l as [|o l IH]; intros s H; cbn [fold_left]; [exact H|]. apply IH, step_all, H.
Qed.
