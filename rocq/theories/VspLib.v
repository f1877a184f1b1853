(** The core library is opened and closed in step with the server plugin. *)
From Coq Require Import List ZArith Bool Lia.
From Verif Require Import EngModel VspModel VspSpec VspProofs VspRuns.
Import ListNotations.
Local Open Scope nat_scope.
Notation length := List.length.

(** ** Without a game library: idle, running, ended *)

Definition idle (s : st) : Prop :=
  gamedll s = None /\ bridge s = None /\ lib s = None /\ opened s = [].
Definition running (s : st) : Prop :=
  gamedll s = None /\ allowed s = false /\ exists h, bridge s = Some h /\ lib s = Some h /\ opened s = [h].
Definition ended (s : st) : Prop :=
  gamedll s = None /\ allowed s = false /\ exists h, bridge s = Some h /\ lib s = None /\ opened s = [].

Lemma load_defined : forall s e, sized s -> gamedll s = None -> load s e <> None.
Proof.
  intros s e S G. unfold load. destruct (allowed s); cbn [negb]; [|discriminate].
  change (if is_none (gamedll (set_allowed s false))
          then set_mmb (set_allowed s false) (e_backend e) else set_allowed s false)
    with (detect s e).
  destruct (patch_command_spec (detect s e) (detect_sized s e S)) as (t & P1 & B1 & S1). rewrite P1.
  destruct (patch_shift_spec t S1) as (u & P2 & B2 & S2). rewrite P2.
  assert (GU : gamedll u = None).
  { destruct B1 as (_ & _ & _ & a4 & _), B2 as (_ & _ & _ & b4 & _).
    destruct (detect_fields s e) as (_ & _ & _ & _ & _ & d6 & _). congruence. }
  assert (Q : forall w : st, opened w = next u :: opened u -> lib w = Some (next u) -> lib_unload w <> None).
  { intros w O L. unfold lib_unload, is_open. rewrite L, O. cbn [existsb]. rewrite Nat.eqb_refl. discriminate. }
  rewrite GU. cbn [is_none andb]. cbv zeta.
  assert (Q1 : unload_if_vsp (lib_load u) <> None).
  { unfold unload_if_vsp. change (gamedll (lib_load u)) with (gamedll u). rewrite GU.
    apply (Q (lib_load u) eq_refl eq_refl). }
  assert (Q2 : unload_if_vsp (set_bridge (set_bridge (lib_load u) (Some (next u))) None) <> None).
  { unfold unload_if_vsp.
    change (gamedll (set_bridge (set_bridge (lib_load u) (Some (next u))) None)) with (gamedll u).
    rewrite GU. apply (Q (set_bridge (set_bridge (lib_load u) (Some (next u))) None) eq_refl eq_refl). }
  assert (LL : lib (lib_load u) = Some (next u)) by reflexivity.
  assert (CC : calls (set_bridge (lib_load u) (Some (next u))) (next u) = true).
  { unfold calls, is_open. cbn [opened set_bridge set_lib lib_load existsb]. rewrite Nat.eqb_refl. reflexivity. }
  rewrite LL, CC. cbn [negb].
  destruct (unload_if_vsp (lib_load u)) as [w1|]; [clear Q1|congruence].
  destruct (unload_if_vsp (set_bridge (set_bridge (lib_load u) (Some (next u))) None)) as [w2|]; [clear Q2|congruence].
  destruct (mmb (detect s e)), (e_lib e), (e_proc e), (e_ok e); cbn [negb]; discriminate.
Qed.

(** the fields after a Load in the state [idle] *)
Lemma idle_load : forall s e r s', sized s -> idle s -> load s e = Some (r, s') ->
  (~ loads (OLoad r) /\ idle s') \/ (loads (OLoad r) /\ running s').
Proof.
  intros s e r s' S (G & B & L & O) H.
  destruct (load_cases s e r s' H) as [(_ & -> & ->)|[(_ & _ & -> & ->)|C]].
  - left. split; [exact (fun q => q)|]. unfold idle. auto.
  - left. split; [exact (fun q => q)|].
    destruct (detect_fields s e) as (d1 & d2 & d3 & d4 & d5 & d6 & d7 & d8 & d9 & d10).
    unfold idle. rewrite d5, d6, d7, d8. auto.
  - destruct C as (A & NU & N1 & N2 & t & u & P1 & P2 & C).
    destruct (patched_fields s e t u S P1 P2) as [(a1 & a2 & a3 & a4 & a5 & a6 & a7 & a8) S'].
    destruct (detect_fields s e) as (d1 & d2 & d3 & d4 & d5 & d6 & d7 & d8 & d9 & d10).
    assert (GU : gamedll u = None) by congruence.
    assert (BU : bridge u = None) by congruence.
    assert (OU : opened u = []) by congruence.
    destruct C as [(_ & C)|(g & h & G' & _)]; [|congruence].
    destruct C as [(_ & -> & ->)|[(_ & _ & -> & UL)|[(_ & _ & _ & -> & UL)|(_ & _ & _ & -> & ->)]]].
    + left. split; [exact (fun q => q)|]. unfold idle. cbn [gamedll bridge lib opened lib_fail set_lib]. auto.
    + left. split; [exact (fun q => q)|].
      destruct (unload_fields _ _ UL) as (_ & _ & _ & _ & q5 & q6 & _ & q8 & _ & h & q9 & q10).
      cbn [gamedll bridge lib opened lib_load set_lib] in *. injection q9 as <-.
      unfold idle. rewrite q5, q6, q8, q10, OU. repeat split; auto.
      cbn [remove]. destruct (Nat.eq_dec (next u) (next u)); congruence.
    + left. split; [exact (fun q => q)|].
      destruct (unload_fields _ _ UL) as (_ & _ & _ & _ & q5 & q6 & _ & q8 & _ & h & q9 & q10).
      cbn [gamedll bridge lib opened lib_load set_lib set_bridge] in *. injection q9 as <-.
      unfold idle. rewrite q5, q6, q8, q10, OU. repeat split; auto.
      cbn [remove]. destruct (Nat.eq_dec (next u) (next u)); congruence.
    + right. split; [exact I|]. unfold running.
      cbn [gamedll allowed bridge lib opened lib_load set_lib set_bridge]. rewrite OU.
      repeat split; [exact GU|congruence|]. exists (next u). auto.
Qed.

Lemma idle_step : forall s o x s', sized s -> idle s -> no_game o -> step s o = Some (x, s') ->
  (~ loads x /\ idle s') \/ (loads x /\ running s').
Proof.
  intros s o x s' S I N H. pose proof I as (G & B & L & O).
  destruct o as [v|e| | | |b| ]; cbn [step] in H; try (exfalso; exact N).
  - rewrite B in H. injection H as <- <-. left. split; [exact (fun q => q)|].
    unfold get_callbacks. rewrite B. destruct (2 <? v mod 2 ^ 32)%Z; exact I.
  - destruct (load s e) as [[r s2]|] eqn:E; [|discriminate]. injection H as <- <-.
    eapply idle_load; eauto.
  - unfold unload in H. rewrite B in H. injection H as <- <-. left. split; [exact (fun q => q)|exact I].
  - destruct (describe s); [|discriminate]. injection H as <- <-. left. split; [exact (fun q => q)|exact I].
  - destruct (query s); [|discriminate]. injection H as <- <-. left. split; [exact (fun q => q)|exact I].
Qed.

Lemma running_step : forall s o x s', running s -> no_game o -> step s o = Some (x, s') ->
  ~ loads x /\ (o <> Unload /\ running s' \/ o = Unload /\ ended s').
Proof.
  intros s o x s' R N H. pose proof R as (G & A & h & B & L & O).
  destruct o as [v|e| | | |b| ]; cbn [step] in H; try (exfalso; exact N).
  - rewrite B in H. injection H as <- <-. split; [exact (fun q => q)|]. left. split; [discriminate|exact R].
  - unfold load in H. rewrite A in H. injection H as <- <-.
    split; [exact (fun q => q)|]. left. split; [discriminate|exact R].
  - unfold unload in H. rewrite B in H. destruct (calls s h); [|discriminate].
    unfold unload_if_vsp in H. rewrite G in H. cbn [is_none] in H.
    destruct (lib_unload s) as [t|] eqn:U; [|discriminate]. injection H as <- <-.
    split; [exact (fun q => q)|]. right. split; [reflexivity|].
    destruct (unload_fields _ _ U) as (_ & _ & q3 & _ & q5 & q6 & _ & q8 & _ & h' & q9 & q10).
    rewrite L in q9. injection q9 as <-. rewrite O in q10. cbn [remove] in q10.
    destruct (Nat.eq_dec h h); [|congruence].
    unfold ended. rewrite q3, q6. repeat split; auto. exists h. rewrite q5. auto.
  - destruct (describe s); [|discriminate]. injection H as <- <-.
    split; [exact (fun q => q)|]. left. split; [discriminate|exact R].
  - destruct (query s); [|discriminate]. injection H as <- <-.
    split; [exact (fun q => q)|]. left. split; [discriminate|exact R].
Qed.

Lemma ended_step : forall s o x s', ended s -> no_game o -> step s o = Some (x, s') ->
  ~ loads x /\ o <> Unload /\ o <> Describe /\ ended s'.
Proof.
  intros s o x s' R N H. pose proof R as (G & A & h & B & L & O).
  destruct o as [v|e| | | |b| ]; cbn [step] in H; try (exfalso; exact N).
  - rewrite B in H. injection H as <- <-. repeat split; try discriminate; auto; apply R.
  - unfold load in H. rewrite A in H. injection H as <- <-. repeat split; try discriminate; auto; apply R.
  - unfold unload in H. rewrite B in H. unfold calls, is_open in H. rewrite O in H. discriminate H.
  - unfold describe in H. rewrite B in H. unfold calls, is_open in H. rewrite O in H. discriminate H.
  - destruct (query s); [|discriminate]. injection H as <- <-. repeat split; try discriminate; auto; apply R.
Qed.

Lemma ended_run : forall l s outs s', ended s -> Forall no_game l -> run s l = Some (outs, s') ->
  ended s' /\ Forall (fun o => o <> Unload /\ o <> Describe) l.
Proof.
  induction l as [|o l IH]; intros s outs s' R F H; cbn [run] in H.
  - injection H as <- <-. auto.
  - inversion F; subst. destruct (step s o) as [[x s1]|] eqn:E; [|discriminate].
    destruct (run s1 l) as [[xs s2]|] eqn:E2; [|discriminate]. injection H as <- <-.
    destruct (ended_step _ _ _ _ R H2 E) as (_ & N1 & N2 & R1).
    destruct (IH _ _ _ R1 H3 E2) as [R2 F2]. auto.
Qed.

Lemma running_run : forall l s outs s', running s -> Forall no_game l -> run s l = Some (outs, s') ->
  (~ In Unload l /\ running s') \/ (In Unload l /\ ended s').
Proof.
  induction l as [|o l IH]; intros s outs s' R F H; cbn [run] in H.
  - injection H as <- <-. left. auto.
  - inversion F; subst. destruct (step s o) as [[x s1]|] eqn:E; [|discriminate].
    destruct (run s1 l) as [[xs s2]|] eqn:E2; [|discriminate]. injection H as <- <-.
    destruct (running_step _ _ _ _ R H2 E) as (_ & [(N & R1)|(-> & R1)]).
    + destruct (IH _ _ _ R1 H3 E2) as [(NI & R2)|(I2 & R2)].
      * left. split; [|exact R2]. intros [q|q]; congruence.
      * right. split; [right; exact I2|exact R2].
    + right. split; [left; reflexivity|]. eapply ended_run; eauto.
Qed.

(** the whole run, from idle *)
Lemma idle_run : forall l s outs s', sized s -> idle s -> Forall no_game l -> run s l = Some (outs, s') ->
  (Forall (fun x => ~ loads x) outs /\ idle s') \/
  (exists l1 e b v l2 o1 o2, l = l1 ++ Load e :: l2 /\ outs = o1 ++ OLoad (Loaded b v) :: o2 /\
     length o1 = length l1 /\
     ((~ In Unload l2 /\ running s') \/ (In Unload l2 /\ ended s'))).
Proof.
  induction l as [|o l IH]; intros s outs s' S I F H; cbn [run] in H.
  - injection H as <- <-. left. auto.
  - inversion F as [|? ? H2 H3]; subst. destruct (step s o) as [[x s1]|] eqn:E; [|discriminate].
    destruct (run s1 l) as [[xs s2]|] eqn:E2; [|discriminate]. injection H as <- <-.
    destruct (idle_step _ _ _ _ S I H2 E) as [(N & I1)|(Lx & R1)].
    + destruct (IH _ _ _ (step_sized _ _ _ _ S E) I1 H3 E2)
        as [(F2 & I2)|(l1 & e & b & v & l2 & o1 & o2 & -> & -> & LN & C)].
      * left. auto.
      * right. exists (o :: l1), e, b, v, l2, (x :: o1), o2.
        repeat split; auto. cbn [List.length]. congruence.
    + right.
      destruct x as [|c|r|d|q]; try (exfalso; exact Lx). destruct r; try (exfalso; exact Lx).
      destruct o; cbn [step] in E;
        try (destruct (bridge s); discriminate E);
        try (match type of E with match ?X with _ => _ end = _ => destruct X; discriminate E end);
        try discriminate E.
      exists [], e, b, v, l, [], xs. repeat split; auto.
      eapply running_run; eauto.
Qed.

(** ** Every orderly run is defined *)

Lemma idle_defined : forall s o, sized s -> idle s -> no_game o -> step s o <> None.
Proof.
  intros s o S (G & B & L & O) N. destruct o as [v|e| | | |b| ]; cbn [step]; try (exfalso; exact N).
  - rewrite B. discriminate.
  - pose proof (load_defined s e S G). destruct (load s e) as [[r t]|]; [discriminate|congruence].
  - unfold unload. rewrite B. discriminate.
  - unfold describe. rewrite B. discriminate.
  - unfold query. rewrite B, G. discriminate.
Qed.

Lemma running_defined : forall s o, running s -> no_game o -> step s o <> None.
Proof.
  intros s o (G & A & h & B & L & O) N.
  assert (IO : is_open s h = true) by (unfold is_open; rewrite O; cbn [existsb]; rewrite Nat.eqb_refl; reflexivity).
  destruct o as [v|e| | | |b| ]; cbn [step]; try (exfalso; exact N).
  - rewrite B. discriminate.
  - unfold load. rewrite A. discriminate.
  - unfold unload, calls, unload_if_vsp, lib_unload. rewrite B, IO, G, L, IO. discriminate.
  - unfold describe, calls. rewrite B, IO. discriminate.
  - unfold query. rewrite B. discriminate.
Qed.

Lemma ended_defined : forall s o, ended s -> no_game o -> o <> Unload -> o <> Describe -> step s o <> None.
Proof.
  intros s o (G & A & h & B & L & O) N N1 N2.
  destruct o as [v|e| | | |b| ]; cbn [step]; try (exfalso; exact N); try congruence.
  - rewrite B. discriminate.
  - unfold load. rewrite A. discriminate.
  - unfold query. rewrite B. discriminate.
Qed.

Lemma defined_run1 : forall l s, sized s -> idle s \/ running s -> Forall no_game l -> ~ In Unload l ->
  exists outs s', run s l = Some (outs, s') /\ sized s' /\ (idle s' \/ running s').
Proof.
  induction l as [|o l IH]; intros s S C F NU.
  - exists [], s. auto.
  - inversion F as [|? ? H2 H3]; subst. cbn [run].
    assert (D : step s o <> None) by (destruct C; [apply idle_defined|apply running_defined]; auto).
    destruct (step s o) as [[x s1]|] eqn:E; [|congruence].
    assert (C1 : idle s1 \/ running s1).
    { destruct C as [C|C].
      - destruct (idle_step _ _ _ _ S C H2 E) as [(_ & Q)|(_ & Q)]; auto.
      - destruct (running_step _ _ _ _ C H2 E) as (_ & [(_ & Q)|(-> & _)]); auto.
        exfalso. apply NU. left. reflexivity. }
    destruct (IH s1 (step_sized _ _ _ _ S E) C1 H3) as (outs & s' & R & S' & C').
    { intros q. apply NU. right. exact q. }
    rewrite R. exists (x :: outs), s'. auto.
Qed.

Lemma defined_run2 : forall l s, sized s -> idle s \/ ended s -> Forall no_game l ->
  ~ In Unload l -> ~ In Describe l -> Forall (fun o => ~ is_load o) l ->
  exists outs s', run s l = Some (outs, s').
Proof.
  induction l as [|o l IH]; intros s S C F NU ND NL.
  - exists [], s. auto.
  - inversion F as [|? ? H2 H3]; subst. inversion NL as [|? ? L2 L3]; subst. cbn [run].
    assert (D : step s o <> None).
    { destruct C; [apply idle_defined|apply ended_defined]; auto; intros ->;
        [apply NU|apply ND]; left; reflexivity. }
    destruct (step s o) as [[x s1]|] eqn:E; [|congruence].
    assert (C1 : idle s1 \/ ended s1).
    { destruct C as [C|C].
      - destruct (idle_step _ _ _ _ S C H2 E) as [(_ & Q)|(Q & _)]; auto.
        exfalso. destruct o; cbn [step] in E;
          try (destruct (bridge s); injection E as <- <-; exact Q);
          try (match type of E with match ?X with _ => _ end = _ => destruct X; [|discriminate E] end;
               injection E as <- <-; exact Q);
          try (injection E as <- <-; exact Q).
        apply L2. exact Logic.I.
      - right. destruct (ended_step _ _ _ _ C H2 E) as (_ & _ & _ & Q). exact Q. }
    destruct (IH s1 (step_sized _ _ _ _ S E) C1 H3) as (outs & s' & R); auto;
      try (intros q; first [apply NU; right; exact q|apply ND; right; exact q]).
    rewrite R. eauto.
Qed.

(** ** With a game library *)

(** the library stays as the game side left it *)
Definition game_running (s : st) : Prop :=
  exists h, gamedll s = Some h /\ lib s = Some h /\ In h (opened s) /\
    (bridge s = None \/ bridge s = Some h).

Lemma in_is_open : forall s h, In h (opened s) -> is_open s h = true.
Proof.
  intros s h H. unfold is_open. apply existsb_exists. exists h. split; [exact H|apply Nat.eqb_refl].
Qed.

Lemma game_step : forall s o, sized s -> game_running s -> no_game o ->
  exists x s', step s o = Some (x, s') /\ game_running s' /\ opened s' = opened s /\ next s' = next s.
Proof.
  intros s o S (h & G & L & O & B) N. pose proof (in_is_open s h O) as IO.
  destruct o as [v|e| | | |b| ]; cbn [step]; try (exfalso; exact N).
  - destruct (bridge s) as [h'|] eqn:BE.
    + exists (OCallbacks false), s. repeat split. exists h. rewrite BE. auto.
    + eexists _, _. split; [reflexivity|]. unfold get_callbacks. rewrite BE.
      destruct (2 <? v mod 2 ^ 32)%Z; cbn [snd]; repeat split; exists h;
        cbn [gamedll lib opened bridge set_allowed set_ver]; rewrite ?BE; auto.
  - unfold load. destruct (allowed s) eqn:A; cbn [negb].
    2:{ exists (OLoad Refused), s. repeat split. exists h. auto. }
    change (if is_none (gamedll (set_allowed s false))
          then set_mmb (set_allowed s false) (e_backend e) else set_allowed s false)
    with (detect s e).
    destruct (detect_fields s e) as (d1 & d2 & d3 & d4 & d5 & d6 & d7 & d8 & d9 & d10).
    destruct (patch_command_spec (detect s e) (detect_sized s e S)) as (t & P1 & B1 & S1). rewrite P1.
    destruct (patch_shift_spec t S1) as (u & P2 & B2 & S2). rewrite P2.
    destruct (patched_fields s e t u S P1 P2) as [(a1 & a2 & a3 & a4 & a5 & a6 & a7 & a8) S'].
    assert (GU : gamedll u = Some h) by congruence.
    assert (LU : lib u = Some h) by congruence.
    assert (OU : opened u = opened s) by congruence.
    assert (XU : next u = next s) by congruence.
    assert (BU : bridge u = bridge s) by congruence.
    assert (IU : is_open u h = true) by (apply in_is_open; rewrite OU; exact O).
    set (K := fun z : option (out * st) => exists x s', z = Some (x, s') /\ game_running s' /\
                 opened s' = opened s /\ next s' = next s).
    assert (K1 : K (Some (OLoad NoEngine, detect s e))).
    { eexists _, _. split; [reflexivity|]. split; [|auto]. exists h. rewrite d5, d6, d7, d8. auto. }
    assert (K2 : K (Some (OLoad NoBridge, u))).
    { eexists _, _. split; [reflexivity|]. split; [|auto]. exists h. rewrite BU, OU. auto. }
    assert (K3 : K (Some (OLoad BridgeRefused, set_bridge (set_bridge u (Some h)) None))).
    { eexists _, _. split; [reflexivity|]. split; [|auto]. exists h.
      cbn [gamedll lib opened bridge set_bridge]. rewrite OU. auto. }
    assert (K4 : K (Some (OLoad (Loaded (mmb u) (ver u)), set_bridge u (Some h)))).
    { eexists _, _. split; [reflexivity|]. split; [|auto]. exists h.
      cbn [gamedll lib opened bridge set_bridge]. rewrite OU. auto. }
    rewrite GU. cbn [is_none andb]. cbv zeta. rewrite LU.
    unfold calls. change (is_open (set_bridge u (Some h)) h) with (is_open u h). rewrite IU. cbn [negb].
    unfold unload_if_vsp. cbn [gamedll set_bridge]. rewrite GU. cbn [is_none].
    destruct (mmb (detect s e)); try exact K1;
      (destruct (e_proc e); cbn [negb]; [|exact K2]);
      (destruct (e_ok e); cbn [negb]; [exact K4|exact K3]).
  - unfold unload, calls, unload_if_vsp. rewrite G. cbn [is_none].
    destruct B as [B|B]; rewrite B; [|rewrite IO]; eexists _, _; (split; [reflexivity|]);
      (split; [exists h; auto|auto]).
  - unfold describe, calls.
    destruct B as [B|B]; rewrite B; [|rewrite IO]; eexists _, _; (split; [reflexivity|]);
      (split; [exists h; auto|auto]).
  - unfold query, calls. rewrite G.
    destruct B as [B|B]; rewrite B; [rewrite IO|]; eexists _, _; (split; [reflexivity|]);
      (split; [exists h; auto|auto]).
Qed.

Lemma game_run : forall l s, sized s -> game_running s -> Forall no_game l ->
  exists outs s', run s l = Some (outs, s') /\ game_running s' /\ opened s' = opened s.
Proof.
  induction l as [|o l IH]; intros s S G F.
  - exists [], s. auto.
  - inversion F as [|? ? H2 H3]; subst. cbn [run].
    destruct (game_step s o S G H2) as (x & s1 & E & G1 & O1 & _). rewrite E.
    destruct (IH s1 (step_sized _ _ _ _ S E) G1 H3) as (outs & s' & R & G' & O'). rewrite R.
    exists (x :: outs), s'. repeat split; auto. congruence.
Qed.

(** ** The interfaces of the game *)

Lemma find_server_spec : forall has n i,
  match find_server has i n with
  | Some k => i <= k < i + n /\ has k = true /\ forall j, i <= j < k -> has j = false
  | None => forall j, i <= j < i + n -> has j = false
  end.
Proof.
  induction n as [|n IH]; intros i; cbn [find_server].
  - intros j J. lia.
  - destruct (has i) eqn:E.
    + split; [lia|]. split; [exact E|]. intros j J. lia.
    + specialize (IH (S i)). destruct (find_server has (S i) n) as [k|].
      * destruct IH as (A & B & C). split; [lia|]. split; [exact B|].
        intros j J. destruct (Nat.eq_dec j i) as [->|NE]; [exact E|apply C; lia].
      * intros j J. destruct (Nat.eq_dec j i) as [->|NE]; [exact E|apply IH; lia].
Qed.
