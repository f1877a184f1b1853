(** Whole runs of the server plugin side of the loader. *)
From Coq Require Import List ZArith Bool Lia.
From Verif Require Import EngModel VspModel VspSpec VspProofs.
Import ListNotations.
Local Open Scope nat_scope.
Notation length := List.length.

(** ** The size of the table never changes *)

Lemma unload_fields : forall s t, lib_unload s = Some t ->
  vt t = vt s /\ wr t = wr s /\ allowed t = allowed s /\ ver t = ver s /\ bridge t = bridge s /\
  gamedll t = gamedll s /\ mmb t = mmb s /\ lib t = None /\ next t = next s /\
  exists h, lib s = Some h /\ opened t = remove Nat.eq_dec h (opened s).
Proof.
  intros s t H. unfold lib_unload in H. destruct (lib s) as [h|] eqn:L; [|discriminate].
  destruct (is_open s h) eqn:O; [|discriminate]. injection H as <-.
  repeat split; auto. exists h. auto.
Qed.

Lemma detect_sized : forall s e, sized s -> sized (detect s e).
Proof.
  intros s e S. destruct (detect_fields s e) as (V & W & _). unfold sized. rewrite V, W. exact S.
Qed.

(** the fields of the state after the two edits *)
Lemma patched_fields : forall s e t u, sized s ->
  patch_command (detect s e) = Some t -> patch_shift t = Some u ->
  same_but_table (detect s e) u /\ sized u.
Proof.
  intros s e t u S H1 H2.
  destruct (patch_command_spec (detect s e) (detect_sized s e S)) as (t' & P1 & B1 & S1).
  rewrite P1 in H1. injection H1 as ->.
  destruct (patch_shift_spec t S1) as (u' & P2 & B2 & S2).
  rewrite P2 in H2. injection H2 as ->.
  split; [|exact S2].
  destruct B1 as (a1 & a2 & a3 & a4 & a5 & a6 & a7 & a8).
  destruct B2 as (b1 & b2 & b3 & b4 & b5 & b6 & b7 & b8).
  unfold same_but_table. repeat split; congruence.
Qed.

(** what a Load that edits leaves, whatever it returns *)
Lemma load_edit_fields : forall s e r s', sized s ->
  load s e = Some (r, s') -> r <> Refused -> r <> NoEngine ->
  exists t u, patch_command (detect s e) = Some t /\ patch_shift t = Some u /\ vt s' = vt u /\ wr s' = wr u /\
    allowed s' = false /\ ver s' = ver s /\ gamedll s' = gamedll s /\ mmb s' = mmb (detect s e) /\
    mmb s' <> UNKNOWN /\ allowed s = true.
Proof.
  intros s e r s' S H R1 R2. destruct (load_cases s e r s' H) as [(A & R & _)|[(A & U & R & _)|C]]; try congruence.
  destruct C as (A & NU & _ & _ & t & u & P1 & P2 & C).
  exists t, u. split; [exact P1|]. split; [exact P2|].
  destruct (patched_fields s e t u S P1 P2) as [(a1 & a2 & a3 & a4 & a5 & a6 & a7 & a8) S'].
  destruct (detect_fields s e) as (d1 & d2 & d3 & d4 & d5 & d6 & d7 & d8 & d9 & d10).
  assert (K : vt s' = vt u /\ wr s' = wr u /\ allowed s' = allowed u /\ ver s' = ver u /\
              gamedll s' = gamedll u /\ mmb s' = mmb u).
  { destruct C as [(_ & [(_ & _ & ->)|[(_ & _ & _ & UL)|[(_ & _ & _ & _ & UL)|(_ & _ & _ & _ & ->)]]])
      |(g & h & _ & _ & [(_ & _ & ->)|[(_ & _ & _ & _ & ->)|(_ & _ & _ & _ & ->)]])];
      try (repeat split; reflexivity);
      destruct (unload_fields _ _ UL) as (q1 & q2 & q3 & q4 & q5 & q6 & q7 & _);
      cbn [vt wr allowed ver gamedll mmb lib_load set_lib set_bridge] in *; repeat split; assumption. }
  destruct K as (k1 & k2 & k3 & k4 & k5 & k6).
  repeat split; try congruence.
Qed.

Lemma step_sized : forall s o x s', sized s -> step s o = Some (x, s') -> sized s'.
Proof.
  intros s o x s' S H. destruct o as [v|e| | | |b| ]; cbn [step] in H.
  - destruct (bridge s); [injection H as <- <-; exact S|].
    injection H as <- <-. unfold get_callbacks. destruct (bridge s); [exact S|].
    destruct (2 <? v mod 2 ^ 32)%Z; exact S.
  - destruct (load s e) as [[r s2]|] eqn:L; [|discriminate]. injection H as <- <-.
    destruct (load_cases s e r s2 L) as [(_ & _ & ->)|[(_ & _ & _ & ->)|C]];
      [exact S|apply detect_sized; exact S|].
    destruct C as (_ & _ & N1 & N2 & _).
    destruct (load_edit_fields s e r s2 S L N1 N2) as (t & u & P1 & P2 & V & W & _).
    destruct (patched_fields s e t u S P1 P2) as [_ [Z1 Z2]].
    split; congruence.
  - destruct (unload s) as [s2|] eqn:U; [|discriminate]. injection H as <- <-.
    unfold unload in U. destruct (bridge s) as [h|]; [|injection U as <-; exact S].
    destruct (calls s h); [|discriminate]. unfold unload_if_vsp in U.
    destruct (is_none (gamedll s)); [|injection U as <-; exact S].
    destruct (unload_fields _ _ U) as (V & W & _). unfold sized. rewrite V, W. exact S.
  - destruct (describe s); [|discriminate]. injection H as <- <-. exact S.
  - destruct (query s); [|discriminate]. injection H as <- <-. exact S.
  - injection H as <- <-. exact S.
  - destruct (game_shutdown s) as [s2|] eqn:U; [|discriminate]. injection H as <- <-.
    unfold game_shutdown in U. destruct (gamedll s) as [h|]; [|discriminate].
    destruct (calls s h); [|discriminate].
    destruct (unload_fields _ _ U) as (V & W & _). unfold sized. rewrite V, W. exact S.
Qed.

Lemma init_sized : sized init.
Proof. split; reflexivity. Qed.

(** a step which is not an edit leaves the table alone *)
Lemma step_noedit_vt : forall s o x s', step s o = Some (x, s') -> ~ edits x -> vt s' = vt s.
Proof.
  intros s o x s' H NE. destruct o as [v|e| | | |b| ]; cbn [step] in H.
  - destruct (bridge s) eqn:B; [injection H as <- <-; reflexivity|].
    injection H as <- <-. unfold get_callbacks. rewrite B.
    destruct (2 <? v mod 2 ^ 32)%Z; reflexivity.
  - destruct (load s e) as [[r s2]|] eqn:L; [|discriminate]. injection H as <- <-.
    destruct (load_cases s e r s2 L) as [(_ & _ & ->)|[(_ & _ & _ & ->)|C]].
    + reflexivity.
    + apply (detect_fields s e).
    + destruct C as (_ & _ & N1 & N2 & _). exfalso. apply NE. destruct r; cbn [edits]; auto.
  - destruct (unload s) as [s2|] eqn:U; [|discriminate]. injection H as <- <-.
    unfold unload in U. destruct (bridge s) as [h|]; [|injection U as <-; reflexivity].
    destruct (calls s h); [|discriminate]. unfold unload_if_vsp in U.
    destruct (is_none (gamedll s)); [|injection U as <-; reflexivity].
    apply (unload_fields _ _ U).
  - destruct (describe s); [|discriminate]. injection H as <- <-. reflexivity.
  - destruct (query s); [|discriminate]. injection H as <- <-. reflexivity.
  - injection H as <- <-. reflexivity.
  - destruct (game_shutdown s) as [s2|] eqn:U; [|discriminate]. injection H as <- <-.
    unfold game_shutdown in U. destruct (gamedll s) as [h|]; [|discriminate].
    destruct (calls s h); [|discriminate]. destruct (unload_fields _ _ U) as (V & _). exact V.
Qed.

Lemma run_noedit_vt : forall l s outs s', run s l = Some (outs, s') ->
  Forall (fun x => ~ edits x) outs -> vt s' = vt s.
Proof.
  induction l as [|o l IH]; intros s outs s' H F; cbn [run] in H.
  - injection H as <- <-. reflexivity.
  - destruct (step s o) as [[x s1]|] eqn:E; [|discriminate].
    destruct (run s1 l) as [[xs s2]|] eqn:E2; [|discriminate].
    injection H as <- <-. inversion F; subst.
    rewrite (IH _ _ _ E2) by assumption. eapply step_noedit_vt; eauto.
Qed.

Lemma amo_tail : forall P x l, at_most_one P (x :: l) -> at_most_one P l.
Proof.
  intros P x l H. inversion H as [l' F E|l1 y l2 Py F1 F2 E].
  - inversion F; subst. constructor. assumption.
  - destruct l1 as [|z l1]; cbn [app] in E; injection E as E1 E2; subst.
    + constructor. assumption.
    + inversion F1; subst. apply amo_one; assumption.
Qed.

Lemma amo_head : forall P x l, at_most_one P (x :: l) -> P x -> Forall (fun x => ~ P x) l.
Proof.
  intros P x l H Px. inversion H as [l' F E|l1 y l2 Py F1 F2 E].
  - inversion F; subst. contradiction.
  - destruct l1 as [|z l1]; cbn [app] in E; injection E as E1 E2; subst.
    + assumption.
    + inversion F1; subst. contradiction.
Qed.

Lemma run_serves : forall l s outs s' b v, sized s -> vt s = vtable0 ->
  run s l = Some (outs, s') -> at_most_one edits outs -> In (OLoad (Loaded b v)) outs -> serves b (vt s').
Proof.
  induction l as [|o l IH]; intros s outs s' b v S V H A I; cbn [run] in H.
  - injection H as <- <-. destruct I.
  - destruct (step s o) as [[x s1]|] eqn:E; [|discriminate].
    destruct (run s1 l) as [[xs s2]|] eqn:E2; [|discriminate].
    injection H as <- <-.
    assert (D : edits x \/ ~ edits x).
    { destruct x as [|c|r|d|q]; cbn [edits]; auto. destruct r; auto. }
    destruct D as [D|D].
    + pose proof (amo_head _ _ _ A D) as F.
      rewrite (run_noedit_vt _ _ _ _ E2 F).
      destruct I as [->|I].
      2:{ rewrite Forall_forall in F. exfalso. apply (F _ I). exact Logic.I. }
      destruct o; cbn [step] in E;
        try (destruct (bridge s); discriminate E);
        try (match type of E with match ?X with _ => _ end = _ => destruct X; discriminate E end);
        try discriminate E.
      destruct (load s e) as [[r s3]|] eqn:L; [|discriminate]. injection E as -> ->.
      destruct (load_edit_fields s e _ s1 S L) as (t & u & P1 & P2 & V1 & _ & _ & _ & _ & M & NU & _);
        [discriminate|discriminate|].
      rewrite V1.
      rewrite (patches_vt (detect s e) t u); [|rewrite (proj1 (detect_fields s e)); exact V| |exact P1|exact P2].
      2:{ rewrite <- M. exact NU. }
      rewrite <- M.
      assert (Mb : mmb s1 = b).
      { destruct (load_cases s e _ s1 L) as [(_ & R & _)|[(_ & _ & R & _)|C]]; try discriminate R.
        destruct C as (_ & _ & _ & _ & t' & u' & P1' & P2' & C).
        destruct C as [(_ & [(_ & R & _)|[(_ & _ & R & _)|[(_ & _ & _ & R & _)|(_ & _ & _ & R & ->)]]])
          |(g & h & _ & _ & [(_ & R & _)|[(_ & _ & _ & R & _)|(_ & _ & _ & R & ->)]])];
          try discriminate R; injection R as -> _; reflexivity. }
      rewrite Mb. apply edited_serves. rewrite <- Mb. exact NU.
    + apply (IH s1 xs s2 b v); auto.
      * eapply step_sized; eauto.
      * rewrite (step_noedit_vt _ _ _ _ E D). exact V.
      * eapply amo_tail; eauto.
      * destruct I as [->|I]; [exfalso; apply D; exact Logic.I|exact I].
Qed.

(** ** Load succeeds once *)

Definition closed_state (s : st) : Prop := bridge s <> None /\ allowed s = false.

Lemma closed_step : forall s o x s', closed_state s -> step s o = Some (x, s') ->
  closed_state s' /\ ~ edits x /\ x <> OCallbacks true.
Proof.
  intros s o x s' [B A] H. destruct o as [v|e| | | |b| ]; cbn [step] in H.
  - destruct (bridge s) eqn:BE; [|congruence]. injection H as <- <-.
    repeat split; try congruence; auto.
  - destruct (load s e) as [[r s2]|] eqn:L; [|discriminate]. injection H as <- <-.
    unfold load in L. rewrite A in L. cbn [negb] in L. injection L as <- <-.
    repeat split; auto. discriminate.
  - destruct (unload s) as [s2|] eqn:U; [|discriminate]. injection H as <- <-.
    assert (Q : bridge s2 = bridge s /\ allowed s2 = allowed s).
    { unfold unload in U. destruct (bridge s) as [h|] eqn:BE; [|congruence].
      destruct (calls s h); [|discriminate]. unfold unload_if_vsp in U.
      destruct (is_none (gamedll s)); [|injection U as <-; auto].
      destruct (unload_fields _ _ U) as (_ & _ & q1 & _ & q2 & _). split; congruence. }
    destruct Q as [Q1 Q2]. unfold closed_state. rewrite Q1, Q2. repeat split; auto. discriminate.
  - destruct (describe s); [|discriminate]. injection H as <- <-. repeat split; auto. discriminate.
  - destruct (query s); [|discriminate]. injection H as <- <-. repeat split; auto. discriminate.
  - injection H as <- <-. repeat split; auto. discriminate.
  - destruct (game_shutdown s) as [s2|] eqn:U; [|discriminate]. injection H as <- <-.
    unfold game_shutdown in U. destruct (gamedll s) as [h|]; [|discriminate].
    destruct (calls s h); [|discriminate].
    destruct (unload_fields _ _ U) as (_ & _ & q1 & _ & q2 & _).
    cbn [allowed bridge set_gamedll] in q1, q2.
    unfold closed_state. rewrite q1, q2. repeat split; auto. discriminate.
Qed.

Lemma closed_run : forall l s outs s', closed_state s -> run s l = Some (outs, s') ->
  closed_state s' /\ Forall (fun x => ~ edits x /\ x <> OCallbacks true) outs.
Proof.
  induction l as [|o l IH]; intros s outs s' C H; cbn [run] in H.
  - injection H as <- <-. auto.
  - destruct (step s o) as [[x s1]|] eqn:E; [|discriminate].
    destruct (run s1 l) as [[xs s2]|] eqn:E2; [|discriminate].
    injection H as <- <-. destruct (closed_step _ _ _ _ C E) as (C1 & N & G).
    destruct (IH _ _ _ C1 E2) as (C2 & F). auto.
Qed.

Lemma loaded_closed : forall s o b v s', sized s -> step s o = Some (OLoad (Loaded b v), s') -> closed_state s'.
Proof.
  intros s o b v s' S E.
  destruct o; cbn [step] in E;
    try (destruct (bridge s); discriminate E);
    try (match type of E with match ?X with _ => _ end = _ => destruct X; discriminate E end);
    try discriminate E.
  destruct (load s e) as [[r s3]|] eqn:L; [|discriminate]. injection E as -> ->.
  destruct (load_edit_fields s e _ s' S L) as (t & u & _ & _ & _ & _ & A & _); [discriminate|discriminate|].
  split; [|exact A].
  destruct (load_cases s e _ s' L) as [(_ & R & _)|[(_ & _ & R & _)|C]]; try discriminate R.
  destruct C as (_ & _ & _ & _ & t' & u' & P1' & P2' & C).
  destruct C as [(_ & [(_ & R & _)|[(_ & _ & R & _)|[(_ & _ & _ & R & _)|(_ & _ & _ & R & ->)]]])
    |(g & h & _ & _ & [(_ & R & _)|[(_ & _ & _ & R & _)|(_ & _ & _ & R & ->)]])];
    try discriminate R; discriminate.
Qed.

Lemma run_once : forall l s outs s', sized s -> run s l = Some (outs, s') -> at_most_one loads outs.
Proof.
  induction l as [|o l IH]; intros s outs s' S H; cbn [run] in H.
  - injection H as <- <-. constructor. constructor.
  - destruct (step s o) as [[x s1]|] eqn:E; [|discriminate].
    destruct (run s1 l) as [[xs s2]|] eqn:E2; [|discriminate].
    injection H as <- <-.
    assert (D : (exists b v, x = OLoad (Loaded b v)) \/ ~ loads x).
    { destruct x as [|c|r|d|q]; cbn [loads]; auto. destruct r; auto. left. eauto. }
    destruct D as [(b & v & ->)|D].
    + destruct (closed_run _ _ _ _ (loaded_closed _ _ _ _ _ S E) E2) as [_ F].
      apply (amo_one loads [] (OLoad (Loaded b v)) xs); [exact Logic.I|constructor|].
      eapply Forall_impl; [|exact F]. intros y [N _] Ly. apply N.
      destruct y as [|c|r|d|q]; cbn [loads edits] in *; auto. destruct r; auto.
    + pose proof (IH s1 xs s2 (step_sized _ _ _ _ S E) E2) as A.
      inversion A as [l' F Q|l1 y l2 Py F1 F2 Q]; subst.
      * constructor. constructor; assumption.
      * apply (amo_one loads (x :: l1) y l2); auto.
Qed.

(** ** Permission *)

Definition is_load (o : op) : Prop := match o with Load _ => True | _ => False end.

(** the request which a Load uses: the last one granted, with no Load since *)
Definition granted (h : list (op * out)) (u : Z) : Prop :=
  exists v p q, h = p ++ (GetCallbacks v, OCallbacks true) :: q /\
    Forall (fun e => ~ is_load (fst e) /\ snd e <> OCallbacks true) q /\
    u = (v mod 2 ^ 32)%Z /\ (u <= 2)%Z.

Lemma granted_more : forall h u o x, granted h u -> ~ is_load o -> x <> OCallbacks true -> granted (h ++ [(o, x)]) u.
Proof.
  intros h u o x (v & p & q & -> & F & E & L) N G.
  exists v, p, (q ++ [(o, x)]). split; [rewrite <- app_assoc; reflexivity|].
  split; [|auto]. apply Forall_app. split; [exact F|]. constructor; [auto|constructor].
Qed.

(** a step which is neither a Load nor a granted request keeps the permission as it is *)
Lemma step_permission : forall s o x s', step s o = Some (x, s') -> ~ is_load o -> x <> OCallbacks true ->
  allowed s' = allowed s /\ ver s' = ver s.
Proof.
  intros s o x s' H NL NG. destruct o as [v|e| | | |b| ]; cbn [step] in H.
  - destruct (bridge s) eqn:B; [injection H as <- <-; auto|].
    injection H as <- <-. unfold get_callbacks in *. rewrite B in *.
    destruct (2 <? v mod 2 ^ 32)%Z; cbn [fst snd] in *; [auto|congruence].
  - exfalso. apply NL. exact I.
  - destruct (unload s) as [s2|] eqn:U; [|discriminate]. injection H as <- <-.
    unfold unload in U. destruct (bridge s) as [h|]; [|injection U as <-; auto].
    destruct (calls s h); [|discriminate]. unfold unload_if_vsp in U.
    destruct (is_none (gamedll s)); [|injection U as <-; auto].
    destruct (unload_fields _ _ U) as (_ & _ & q1 & q2 & _). auto.
  - destruct (describe s); [|discriminate]. injection H as <- <-. auto.
  - destruct (query s); [|discriminate]. injection H as <- <-. auto.
  - injection H as <- <-. auto.
  - destruct (game_shutdown s) as [s2|] eqn:U; [|discriminate]. injection H as <- <-.
    unfold game_shutdown in U. destruct (gamedll s) as [h|]; [|discriminate].
    destruct (calls s h); [|discriminate]. destruct (unload_fields _ _ U) as (_ & _ & q1 & q2 & _). auto.
Qed.

Lemma combine_snoc : forall (A B : Type) (l : list A) (m : list B) a b, length l = length m ->
  combine (l ++ [a]) (m ++ [b]) = combine l m ++ [(a, b)].
Proof.
  induction l as [|x l IH]; intros [|y m] a b E; cbn [List.length] in E; try discriminate; [reflexivity|].
  cbn [app combine]. rewrite IH by lia. reflexivity.
Qed.

Lemma run_permission : forall l outs s, run init l = Some (outs, s) ->
  sized s /\ (allowed s = true -> granted (combine l outs) (ver s)) /\
  forall h1 e r h2, combine l outs = h1 ++ (Load e, OLoad r) :: h2 -> r <> Refused ->
    exists u, granted h1 u /\ forall b v, r = Loaded b v -> v = u.
Proof.
  induction l as [|o l IH] using rev_ind; intros outs s H.
  - cbn [run] in H. injection H as <- <-. split; [exact init_sized|]. split.
    + intros A. cbv in A. discriminate A.
    + intros h1 e r h2 E. destruct h1; discriminate E.
  - destruct (run_snoc _ _ _ _ _ H) as (o1 & x & s1 & R & E & ->).
    destruct (IH o1 s1 R) as (S1 & K & P). pose proof (run_length _ _ _ _ R) as LN.
    rewrite combine_snoc by (symmetry; exact LN).
    split; [eapply step_sized; eauto|].
    destruct o as [v|e| | | |b| ].
    2:{ cbn [step] in E. destruct (load s1 e) as [[r s3]|] eqn:L; [|discriminate]. injection E as <- <-.
        assert (D : r = Refused \/ r <> Refused) by (destruct r; auto; right; discriminate).
        split.
        - intros A. exfalso.
          destruct (load_cases s1 e r s3 L) as [(A1 & _ & ->)|[(_ & _ & _ & ->)|C]].
          + congruence.
          + rewrite (proj1 (proj2 (proj2 (detect_fields s1 e)))) in A. discriminate A.
          + destruct C as (_ & _ & N1 & N2 & _).
            destruct (load_edit_fields s1 e r s3 S1 L N1 N2) as (t & u & _ & _ & _ & _ & A2 & _). congruence.
        - intros h1 e' r' h2 EQ NR.
          destruct h2 as [|z h2] using rev_ind.
          + apply app_inj_tail in EQ. destruct EQ as [<- EQ]. injection EQ as -> ->.
            destruct (load_cases s1 e' r' s3 L) as [(_ & R' & _)|C]; [congruence|].
            assert (A1 : allowed s1 = true) by (destruct C as [(A1 & _)|(A1 & _)]; exact A1).
            exists (ver s1). split; [apply K; exact A1|].
            intros b v ->.
            destruct (load_cases s1 e' _ s3 L) as [(_ & R' & _)|[(_ & _ & R' & _)|C']]; try discriminate R'.
            destruct C' as (_ & _ & _ & _ & t & u & P1 & P2 & C').
            destruct (patched_fields s1 e' t u S1 P1 P2) as [(_ & a2 & _) _].
            destruct (detect_fields s1 e') as (_ & _ & _ & d4 & _).
            destruct C' as [(_ & [(_ & R' & _)|[(_ & _ & R' & _)|[(_ & _ & _ & R' & _)|(_ & _ & _ & R' & _)]]])
              |(g & h & _ & _ & [(_ & R' & _)|[(_ & _ & _ & R' & _)|(_ & _ & _ & R' & _)]])];
              try discriminate R'; injection R' as _ ->; congruence.
          + clear IHh2. rewrite app_comm_cons, app_assoc in EQ. apply app_inj_tail in EQ.
            destruct EQ as [EQ _]. eapply P; eauto. }
    all: split;
      [|intros h1 e' r' h2 EQ NR;
        destruct h2 as [|z h2 IHh] using rev_ind;
        [apply app_inj_tail in EQ; destruct EQ as [_ EQ]; discriminate EQ
        |clear IHh; rewrite app_comm_cons, app_assoc in EQ; apply app_inj_tail in EQ;
         destruct EQ as [EQ _]; eapply P; eauto]].
    (* the request *)
    { intros A. assert (D : x = OCallbacks true \/ x <> OCallbacks true).
      { destruct x as [|c|r|d|q]; try (right; discriminate). destruct c; [left; reflexivity|right; discriminate]. }
      destruct D as [->|D].
      - cbn [step] in E. destruct (bridge s1) eqn:B; [discriminate E|].
        unfold get_callbacks in E. rewrite B in E.
        destruct (2 <? v mod 2 ^ 32)%Z eqn:G; [discriminate E|]. cbn [fst snd] in E. injection E as <-.
        exists v, (combine l o1), []. split; [reflexivity|]. split; [constructor|].
        split; [reflexivity|]. apply Z.ltb_ge in G. exact G.
      - destruct (step_permission _ _ _ _ E) as [Q1 Q2]; [exact (fun q => q)|exact D|].
        rewrite Q2. apply granted_more; [apply K; congruence|exact (fun q => q)|exact D]. }
    all: intros A;
      assert (D : x <> OCallbacks true)
        by (intros ->; cbn [step] in E;
            try (match type of E with match ?X with _ => _ end = _ => destruct X; discriminate E end);
            discriminate E);
      destruct (step_permission _ _ _ _ E) as [Q1 Q2]; [exact (fun q => q)|exact D|];
      rewrite Q2; (apply granted_more; [apply K; congruence|exact (fun q => q)|exact D]).
Qed.
