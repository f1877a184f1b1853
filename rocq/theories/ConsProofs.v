From Coq Require Import List ZArith Bool Arith Ascii String DecimalString DecimalPos DecimalZ DecimalFacts Lia.
From Verif Require Import Base ListModel StrModel StrSpec StrProofs PlugModel PlugSpec PlugProofs PlugRun PlugProps PlFileModel ConsModel ConsSpec.
Import ListNotations.
Local Open Scope list_scope.
Local Open Scope nat_scope.
Notation length := List.length.

(** ** Numbers *)
Lemma digits_pos d : forall acc, digits (Zpos acc) (w_ (NilEmpty.string_of_uint d)) = Zpos (Pos.of_uint_acc d acc).
Proof.
  induction d; intros acc; [reflexivity|..]; cbn [NilEmpty.string_of_uint w_ list_ascii_of_string digits Pos.of_uint_acc];
    match goal with |- context [digit ?c] => let v := eval vm_compute in (digit c) in change (digit c) with v end; cbn iota.
  all: match goal with |- digits ?z _ = Zpos (Pos.of_uint_acc _ ?p) => replace z with (Zpos p) by lia end; apply IHd.
Qed.
Lemma digits_zero d : digits 0 (w_ (NilEmpty.string_of_uint d)) = Z.of_N (Pos.of_uint d).
Proof.
  induction d; [reflexivity|..]; cbn [NilEmpty.string_of_uint w_ list_ascii_of_string digits Pos.of_uint];
    match goal with |- context [digit ?c] => let v := eval vm_compute in (digit c) in change (digit c) with v end; cbn iota.
  1: exact IHd.
  all: cbn [Z.of_N]; match goal with |- digits ?z _ = Zpos (Pos.of_uint_acc _ ?p) => change z with (Zpos p) end; apply digits_pos.
Qed.
Lemma to_int_sign n : Z.to_int n = (if (n <? 0)%Z then Decimal.Neg (N.to_uint (Z.to_N (- n))) else Decimal.Pos (N.to_uint (Z.to_N n))).
Proof. destruct n; reflexivity. Qed.
Lemma uint_first d : d <> Decimal.Nil -> exists c r, w_ (NilEmpty.string_of_uint d) = c :: r /\ isspace c = false /\ Ascii.eqb c "-" = false /\ Ascii.eqb c "+" = false.
Proof. destruct d; intros H; [congruence|..]; eexists _, _; (split; [reflexivity|]); repeat split. Qed.
Lemma to_uint_nonnil n : N.to_uint n <> Decimal.Nil.
Proof. destruct n; [discriminate|]. apply DecimalPos.Unsigned.to_uint_nonnil. Qed.
Lemma atoi_numeral n : is_int n -> atoi (numeral n) = n.
Proof.
  intros H. pose proof H as B. unfold is_int in B. unfold atoi, numeral. fold (w_ (NilEmpty.string_of_int (Z.to_int n))).
  assert (V : strtol (w_ (NilEmpty.string_of_int (Z.to_int n))) = n).
  { rewrite to_int_sign. unfold strtol. destruct (Z.ltb_spec n 0).
    - cbn [NilEmpty.string_of_int w_ list_ascii_of_string drop_space]. change (isspace "-") with false. cbn iota. change (Ascii.eqb "-" "-") with true. cbn iota.
      fold (w_ (NilEmpty.string_of_uint (N.to_uint (Z.to_N (- n))))). rewrite digits_zero. fold (N.of_uint (N.to_uint (Z.to_N (- n)))). rewrite DecimalN.Unsigned.of_to. lia.
    - cbn [NilEmpty.string_of_int]. destruct (uint_first (N.to_uint (Z.to_N n)) (to_uint_nonnil _)) as (c & r & E & S1 & S2 & S3).
      rewrite E. cbn [drop_space]. rewrite S1, S2, S3, <- E, digits_zero. fold (N.of_uint (N.to_uint (Z.to_N n))). rewrite DecimalN.Unsigned.of_to. lia. }
  rewrite V. unfold int32. rewrite Z.mod_small; lia.
Qed.

(** A name that starts with a letter is no number. *)
Lemma letter_zero c r : isalpha c = true -> atoi (c :: r) = 0%Z.
Proof.
  intros H. unfold atoi, strtol.
  assert (A : isspace c = false /\ Ascii.eqb c "-" = false /\ Ascii.eqb c "+" = false /\ digit c = None).
  { revert H. destruct c as [[] [] [] [] [] [] [] []]; vm_compute; intros H; try discriminate; auto. }
  destruct A as (A1 & A2 & A3 & A4). cbn [drop_space]. rewrite A1, A2, A3. cbn [digits]. rewrite A4. reflexivity.
Qed.

(** ** The list as it is seen *)
Definition gv (s : st) (a : nat) : list entry := match getp s a with Some p => [vw p] | None => [] end.
Lemma view_gv s : view s = flat_map (gv s) (plugins s).
Proof. unfold view, listed, gv. rewrite map_flat. apply flat_map_ext. intros a. destruct (getp s a); reflexivity. Qed.
Lemma gv_get s a p : getp s a = Some p -> gv s a = [vw p].
Proof. intros G. unfold gv. rewrite G. reflexivity. Qed.
Lemma flat_map_ext_in' {A B} (f g : A -> list B) l : (forall a, In a l -> f a = g a) -> flat_map f l = flat_map g l.
Proof. induction l as [|a l IH]; intros H; [reflexivity|]. cbn [flat_map]. rewrite (H a (or_introl eq_refl)), IH; [reflexivity|]. intros b I. apply H. right. exact I. Qed.
Lemma gv_keep s s' a : (exists p, getp s a = Some p) -> (forall p, getp s a = Some p -> exists p', getp s' a = Some p' /\ vw p' = vw p) -> gv s' a = gv s a.
Proof. intros (p & G) K. unfold gv. destruct (K p G) as (p' & G' & V). rewrite G, G', V. reflexivity. Qed.
Lemma view_keep s s' : Inv s -> plugins s' = plugins s -> (forall a p, In a (plugins s) -> getp s a = Some p -> exists p', getp s' a = Some p' /\ vw p' = vw p) -> view s' = view s.
Proof. intros I P K. rewrite !view_gv, P. apply flat_map_ext_in'. intros a Ia. apply gv_keep; [apply (iv_get _ I a Ia)|]. intros p. apply K. exact Ia. Qed.
Lemma view_frame s s' : Inv s -> frame s s' -> view s' = view s.
Proof. intros I F. apply view_keep; [exact I|apply F|]. intros a p Ia G. exact (fr_get _ _ F a p Ia G). Qed.
(** one entry is different *)
Lemma view_one s s' a p p' : Inv s -> plugins s' = plugins s -> In a (plugins s) -> getp s a = Some p -> getp s' a = Some p' ->
  (forall b q, In b (plugins s) -> b <> a -> getp s b = Some q -> exists q', getp s' b = Some q' /\ vw q' = vw q) ->
  exists v1 v2, view s = v1 ++ vw p :: v2 /\ view s' = v1 ++ vw p' :: v2.
Proof.
  intros I P Ia G G' K. destruct (in_split _ _ Ia) as (l1 & l2 & E). pose proof (iv_nodup _ I) as N. rewrite E in N. apply NoDup_mid in N. destruct N as [_ N].
  exists (flat_map (gv s) l1), (flat_map (gv s) l2). rewrite !view_gv, P, E, !flat_map_app. cbn [flat_map]. rewrite (gv_get s a p G), (gv_get s' a p' G'). cbn [app]. split; [reflexivity|].
  assert (X : forall b, In b (l1 ++ l2) -> gv s' b = gv s b).
  { intros b Ib. assert (Ib' : In b (plugins s)) by (rewrite E; apply in_mid; exact Ib). apply gv_keep; [apply (iv_get _ I b Ib')|]. intros q. apply K; [exact Ib'|]. intros ->. contradiction. }
  rewrite (flat_map_ext_in' (gv s') (gv s) l1), (flat_map_ext_in' (gv s') (gv s) l2); [reflexivity|..]; intros b Ib; apply X, in_or_app; auto.
Qed.
(** one entry is gone *)
Lemma view_drop s s' a p l1 l2 : Inv s -> plugins s = l1 ++ a :: l2 -> plugins s' = l1 ++ l2 -> getp s a = Some p ->
  (forall b q, In b (plugins s') -> getp s b = Some q -> exists q', getp s' b = Some q' /\ vw q' = vw q) ->
  exists v1 v2, view s = v1 ++ vw p :: v2 /\ view s' = v1 ++ v2.
Proof.
  intros I E E' G K. exists (flat_map (gv s) l1), (flat_map (gv s) l2). rewrite !view_gv, E', E, !flat_map_app. cbn [flat_map]. rewrite (gv_get s a p G). split; [reflexivity|].
  assert (X : forall b, In b (l1 ++ l2) -> gv s' b = gv s b).
  { intros b Ib. apply gv_keep; [apply (iv_get _ I b); rewrite E; apply in_mid; exact Ib|]. intros q. apply K. rewrite E'. exact Ib. }
  rewrite (flat_map_ext_in' (gv s') (gv s) l1), (flat_map_ext_in' (gv s') (gv s) l2); [reflexivity|..]; intros b Ib; apply X, in_or_app; auto.
Qed.
Lemma view_in s p : In (vw p) (view s) -> exists a q, In a (plugins s) /\ getp s a = Some q /\ vw q = vw p.
Proof. rewrite view_gv. intros J. apply in_flat_map in J. destruct J as (a & Ia & J). unfold gv in J. destruct (getp s a) as [q|] eqn:G; [|destruct J]. destruct J as [J|[]]. exists a, q. auto. Qed.
Lemma in_view s a p : In a (plugins s) -> getp s a = Some p -> In (vw p) (view s).
Proof. intros Ia G. rewrite view_gv. apply in_flat_map. exists a. split; [exact Ia|]. unfold gv. rewrite G. left. reflexivity. Qed.

(** ** The operations *)
Lemma call_frame1 s a c acts s' : call_plugin s a c acts = Some s' -> frame1 a s s'.
Proof. intros E. apply frame_frame1, same_frame. exact (call_plugin_same _ _ _ _ _ E). Qed.

Section Toggle.
Variable s : st.
Hypothesis I : Inv s.

Lemma Pause_view id c s' r : Pause s id c = Some (s', r) -> if r then turned id Running Paused (view s) (view s') else view s' = view s.
Proof.
  intros E. unfold Pause in E. destruct (find_id s (plugins s) id) as [o|] eqn:Fd; [|discriminate]. apply find_id_spec in Fd.
  destruct o as [a|]; [|injection E as <- <-; reflexivity]. destruct Fd as (Ia & p & G & <-).
  destruct (_Pause s a c) as [[s1 b]|] eqn:Q; [|discriminate]. unfold _Pause in Q. rewrite G in Q. destruct (p_status p) as [x|] eqn:X; [|discriminate].
  assert (NO : Some (s, false) = Some (s1, b) -> if r then turned (p_id p) Running Paused (view s) (view s') else view s' = view s).
  { intros J. injection J as -> <-. cbn iota in E. injection E as <- <-. reflexivity. }
  destruct x; try exact (NO Q). destruct (p_api p) as [api|]; try exact (NO Q). clear NO.
  destruct (call_plugin s a (CPause a (snd c)) (fst c)) as [s2|] eqn:C; [|discriminate Q]. apply call_plugin_same in C. pose proof (same_frame _ _ C) as F2.
  destruct (snd c).
  - destruct (getp s2 a) as [p2|] eqn:G2; [|discriminate]. injection Q as <- <-. cbn [fst snd] in E.
    destruct (getp (setp (sh_pause true s2 (p_id p2)) a (Some (with_status Paused p2))) a) as [p3|] eqn:G3; [|discriminate].
    destruct (iter_plevent _ OnPause (p_id p3)) as [s4|] eqn:It; [|discriminate]. injection E as <- <-. pose proof (same_frame _ _ (iter_same _ _ _ _ It)) as F4.
    destruct (fr_get _ _ F2 a p Ia G) as (p2' & G2' & V2). assert (p2' = p2) by congruence. subst p2'.
    assert (LT : a < length (heap (sh_pause true s2 (p_id p2)))) by (cbn; apply (getp_lt _ _ _ G2)).
    rewrite getp_setp_same in G3 by exact LT. injection G3 as <-.
    set (s3 := setp _ a _) in *. assert (P3 : plugins s3 = plugins s) by (exact (fr_plugins _ _ F2)).
    assert (Ia3 : In a (plugins s3)) by (rewrite P3; exact Ia).
    destruct (fr_get _ _ F4 a (with_status Paused p2) Ia3) as (p4 & G4 & V4); [unfold s3; apply getp_setp_same, LT|].
    destruct (view_one s s4 a p p4 I) as (v1 & v2 & W1 & W2); auto.
    + rewrite (fr_plugins _ _ F4). exact P3.
    + intros d q Id Nd Gd. destruct (fr_get _ _ F2 d q Id Gd) as (q2 & Q2 & W2). destruct (fr_get _ _ F4 d q2) as (q4 & Q4 & W4); [rewrite P3; exact Id|unfold s3; rewrite getp_setp_other by congruence; exact Q2|]. exists q4. split; [exact Q4|congruence].
    + exists v1, (p_file p), v2. rewrite W1, W2, V4. unfold vw. cbn [p_id p_file p_status with_status]. rewrite X, (vw_id _ _ V2), (vw_file _ _ V2). auto.
  - injection Q as <- <-. injection E as <- <-. apply view_frame; assumption.
Qed.
Lemma Unpause_view id c s' r : Unpause s id c = Some (s', r) -> if r then turned id Paused Running (view s) (view s') else view s' = view s.
Proof.
  intros E. unfold Unpause in E. destruct (find_id s (plugins s) id) as [o|] eqn:Fd; [|discriminate]. apply find_id_spec in Fd.
  destruct o as [a|]; [|injection E as <- <-; reflexivity]. destruct Fd as (Ia & p & G & <-).
  destruct (_Unpause s a c) as [[s1 b]|] eqn:Q; [|discriminate]. unfold _Unpause in Q. rewrite G in Q. destruct (p_status p) as [x|] eqn:X; [|discriminate].
  assert (NO : Some (s, false) = Some (s1, b) -> if r then turned (p_id p) Paused Running (view s) (view s') else view s' = view s).
  { intros J. injection J as -> <-. cbn iota in E. injection E as <- <-. reflexivity. }
  destruct x; try exact (NO Q). destruct (p_api p) as [api|]; try exact (NO Q). clear NO.
  destruct (call_plugin s a (CUnpause a (snd c)) (fst c)) as [s2|] eqn:C; [|discriminate Q]. apply call_plugin_same in C. pose proof (same_frame _ _ C) as F2.
  destruct (snd c).
  - destruct (getp s2 a) as [p2|] eqn:G2; [|discriminate]. injection Q as <- <-. cbn [fst snd] in E.
    destruct (getp (setp (sh_pause false s2 (p_id p2)) a (Some (with_status Running p2))) a) as [p3|] eqn:G3; [|discriminate].
    destruct (iter_plevent _ OnUnpause (p_id p3)) as [s4|] eqn:It; [|discriminate]. injection E as <- <-. pose proof (same_frame _ _ (iter_same _ _ _ _ It)) as F4.
    destruct (fr_get _ _ F2 a p Ia G) as (p2' & G2' & V2). assert (p2' = p2) by congruence. subst p2'.
    assert (LT : a < length (heap (sh_pause false s2 (p_id p2)))) by (cbn; apply (getp_lt _ _ _ G2)).
    rewrite getp_setp_same in G3 by exact LT. injection G3 as <-.
    set (s3 := setp _ a _) in *. assert (P3 : plugins s3 = plugins s) by (exact (fr_plugins _ _ F2)).
    assert (Ia3 : In a (plugins s3)) by (rewrite P3; exact Ia).
    destruct (fr_get _ _ F4 a (with_status Running p2) Ia3) as (p4 & G4 & V4); [unfold s3; apply getp_setp_same, LT|].
    destruct (view_one s s4 a p p4 I) as (v1 & v2 & W1 & W2); auto.
    + rewrite (fr_plugins _ _ F4). exact P3.
    + intros d q Id Nd Gd. destruct (fr_get _ _ F2 d q Id Gd) as (q2 & Q2 & W2). destruct (fr_get _ _ F4 d q2) as (q4 & Q4 & W4); [rewrite P3; exact Id|unfold s3; rewrite getp_setp_other by congruence; exact Q2|]. exists q4. split; [exact Q4|congruence].
    + exists v1, (p_file p), v2. rewrite W1, W2, V4. unfold vw. cbn [p_id p_file p_status with_status]. rewrite X, (vw_id _ _ V2), (vw_file _ _ V2). auto.
  - injection Q as <- <-. injection E as <- <-. apply view_frame; assumption.
Qed.
Lemma Unload_view id force c s' r : Unload s id force c = Some (s', r) ->
  (if r then dropped id (view s) (view s') else view s' = view s) /\ (r = false -> force = true -> absent id (view s)).
Proof.
  intros E. unfold Unload in E. destruct (find_id s (plugins s) id) as [o|] eqn:Fd; [|discriminate]. apply find_id_spec in Fd.
  destruct o as [a|].
  - destruct Fd as (Ia & p & G & <-). rewrite G in E. destruct (_Unload s a force c) as [[s1 b]|] eqn:U; [|discriminate].
    destruct (_Unload_spec _ _ _ _ _ _ I Ia U) as (I1 & _ & _ & _ & P & K & _ & FT). destruct b.
    + destruct (iter_plevent s1 OnUnload (p_id p)) as [s2|] eqn:It; [|discriminate]. injection E as <- <-. pose proof (same_frame _ _ (iter_same _ _ _ _ It)) as F2. destruct P as (l1 & l2 & P1 & P2).
      destruct (view_drop s s1 a p l1 l2 I P1 P2 G K) as (v1 & v2 & W1 & W2). split; [|discriminate]. exists v1, (p_file p), (p_status p), v2. rewrite W1, (view_frame _ _ I1 F2), W2. auto.
    + injection E as <- <-. split; [apply view_keep; auto|].
      * intros b q Ib Gb. apply K; [rewrite P; exact Ib|exact Gb].
      * intros _ X. specialize (FT X). discriminate.
  - injection E as <- <-. split; [reflexivity|]. intros _ _ f x J. rewrite view_gv in J. apply in_flat_map in J. destruct J as (a & Ia & J). unfold gv in J. destruct (getp s a) as [q|] eqn:G; [|destruct J]. destruct J as [J|[]]. injection J as J _ _. exact (Fd a q Ia G J).
Qed.
Lemma Retry_view id li c s' r : Retry s id li c = Some (s', r) ->
  if r then exists v1 f x y v2, view s = v1 ++ (id, f, Some x) :: v2 /\ loaded x = false /\ view s' = v1 ++ v2 ++ [(id, f, Some y)] /\ loaded y = true
  else view s' = view s.
Proof.
  intros E. unfold Retry in E. destruct (find_id s (plugins s) id) as [o|] eqn:Fd; [|discriminate]. apply find_id_spec in Fd.
  destruct o as [a|]; [|injection E as <- <-; reflexivity]. destruct Fd as (Ia & p & G & Eid). rewrite G in E.
  destruct (p_status p) as [x|] eqn:X; [|discriminate]. destruct (loaded x) eqn:Lx; [injection E as <- <-; reflexivity|].
  destruct (_Load s (p_file p) li) as [[s1 b]|] eqn:L; [|discriminate].
  destruct (_Load_spec _ _ _ _ _ I L) as (Eb & I1 & P1 & L1 & _ & _ & K1 & q & y & G1 & Iq & Fq & Y).
  rewrite G1, Y in E. assert (NE : b <> a) by (pose proof (listed_lt _ _ I Ia); lia).
  assert (IaP : In a (plugins s1)) by (rewrite P1; apply in_or_app; left; exact Ia).
  assert (IbP : In b (plugins s1)) by (rewrite P1; apply in_or_app; right; left; reflexivity).
  assert (NB : ~ In b (plugins s)) by (intros C; pose proof (listed_lt _ _ I C); lia).
  destruct (loaded y) eqn:Ly.
  - destruct (_Unload s1 a true c) as [[s2 bb]|] eqn:U; [|discriminate].
    destruct (_Unload_spec _ _ _ _ _ _ I1 IaP U) as (I2 & L2 & _ & _ & P2 & K2 & _ & Bt). rewrite (Bt eq_refl) in *. destruct P2 as (l1 & l2 & P2a & P2b).
    assert (Ib2 : In b (plugins s2)) by (rewrite P2b; apply (in_mid_ne l1 a l2); [rewrite <- P2a; exact IbP|exact NE]).
    destruct (K2 b q Ib2 G1) as (q2 & G2 & V2). rewrite G2 in E. injection E as <- <-.
    destruct (in_split _ _ Ia) as (m1 & m2 & M).
    assert (N1 : NoDup (plugins s1)) by apply I1.
    assert (PL : plugins s2 = m1 ++ m2 ++ [b]).
    { rewrite P1, M, <- app_assoc in P2a. cbn [app] in P2a.
      assert (HH : forall (x1 y1 x2 y2 : list nat), x1 ++ a :: x2 = y1 ++ a :: y2 -> ~ In a x1 -> ~ In a y1 -> x1 = y1 /\ x2 = y2).
      { induction x1 as [|z x1 IH]; intros [|w y1] x2 y2 EE A1 A2; cbn [app] in EE.
        - injection EE as EE. auto.
        - injection EE as -> _. exfalso. apply A2. left. reflexivity.
        - injection EE as -> _. exfalso. apply A1. left. reflexivity.
        - injection EE as -> EE. destruct (IH y1 x2 y2 EE) as [-> ->]; [intros C; apply A1; right; exact C|intros C; apply A2; right; exact C|]. auto. }
      destruct (HH _ _ _ _ P2a) as [H1 H2].
      - pose proof (iv_nodup _ I) as N. rewrite M in N. apply NoDup_mid in N. intros C. apply (proj2 N). apply in_or_app. auto.
      - rewrite P1, M, <- app_assoc in N1. cbn [app] in N1. rewrite P2a in N1. apply NoDup_mid in N1. intros C. apply (proj2 N1). apply in_or_app. auto.
      - rewrite P2b, H2, <- H1. reflexivity. }
    assert (X1 : forall d, In d (m1 ++ m2) -> gv (set_last (last s2 - 1) (setp s2 b (Some (with_id id q2)))) d = gv s d).
    { intros d Id. assert (Id0 : In d (plugins s)) by (rewrite M; apply in_mid; exact Id). apply gv_keep; [apply (iv_get _ I d Id0)|]. intros t T.
      destruct (K1 d t Id0 T) as (t1 & T1 & W1). destruct (K2 d t1) as (t2 & T2 & W2); [rewrite PL, app_assoc; apply in_or_app; left; exact Id|exact T1|].
      exists t2. split; [|congruence]. change (getp (setp s2 b (Some (with_id id q2))) d = Some t2). rewrite getp_setp_other; [exact T2|]. intros ->. contradiction. }
    exists (flat_map (gv s) m1), (p_file p), x, y, (flat_map (gv s) m2).
    rewrite !view_gv. change (plugins (set_last (last s2 - 1) (setp s2 b (Some (with_id id q2))))) with (plugins s2). rewrite PL, M, !flat_map_app. cbn [flat_map]. rewrite List.app_nil_r.
    split; [|split; [exact Lx|split; [|exact Ly]]].
    + rewrite (gv_get s a p G). unfold vw. rewrite X, Eid. reflexivity.
    + f_equal; [apply flat_map_ext_in'; intros d Id; apply X1, in_or_app; auto|]. f_equal; [apply flat_map_ext_in'; intros d Id; apply X1, in_or_app; auto|].
      unfold gv. change (getp (set_last (last s2 - 1) (setp s2 b (Some (with_id id q2)))) b) with (getp (setp s2 b (Some (with_id id q2))) b). rewrite getp_setp_same by (apply (getp_lt _ _ _ G2)).
      unfold vw. cbn [p_id p_file p_status with_id]. rewrite (vw_file _ _ V2), (vw_status _ _ V2), Fq, Y. reflexivity.
  - destruct (_Unload s1 b true c) as [[s2 bb]|] eqn:U; [|discriminate].
    destruct (_Unload_spec _ _ _ _ _ _ I1 IbP U) as (I2 & L2 & _ & _ & P2 & K2 & _ & Bt). rewrite (Bt eq_refl) in *. destruct P2 as (l1 & l2 & P2a & P2b).
    injection E as <- <-.
    assert (PL : plugins s2 = plugins s).
    { rewrite P1 in P2a. rewrite P2b.
      assert (HH : forall (x1 y1 y2 : list nat), x1 ++ [b] = y1 ++ b :: y2 -> ~ In b x1 -> y1 ++ y2 = x1).
      { induction x1 as [|z x1 IH]; intros [|w y1] y2 EE A1; cbn [app] in EE.
        - injection EE as <-. reflexivity.
        - injection EE as <- EE. destruct y1; discriminate.
        - injection EE as -> _. exfalso. apply A1. left. reflexivity.
        - injection EE as -> EE. cbn [app]. f_equal. apply IH; [exact EE|]. intros C. apply A1. right. exact C. }
      apply HH; [exact P2a|exact NB]. }
    change (view s2 = view s). apply view_keep; [exact I|exact PL|]. intros d t Id T. destruct (K1 d t Id T) as (t1 & T1 & W1). destruct (K2 d t1) as (t2 & T2 & W2); [rewrite PL; exact Id|exact T1|]. exists t2. split; [exact T2|congruence].
Qed.
End Toggle.

(** Load *)
Lemma elsewhere_app path v1 v2 : elsewhere path (v1 ++ v2) = elsewhere path v1 ++ elsewhere path v2.
Proof. apply filter_app. Qed.
Lemma elsewhere_here path e : collapse (snd (fst e)) = collapse path -> elsewhere path [e] = [].
Proof. intros E. unfold elsewhere. cbn [filter]. destruct (list_eq_dec _ _ _); [reflexivity|contradiction]. Qed.
Lemma scan_view s file : forall l l' al e, load_scan s file l = Some (l', al, e) -> elsewhere file (flat_map (gv s) l') = elsewhere file (flat_map (gv s) l).
Proof.
  induction l as [|a l IH]; intros l' al e E; cbn [load_scan] in E; [injection E as <- _ _; reflexivity|].
  destruct (getp s a) as [p|] eqn:G; [|discriminate]. destruct (UTIL_PathCmp_spec file (p_file p)) as (r & PC & R). rewrite PC in E.
  assert (GV : gv s a = [vw p]) by (unfold gv; rewrite G; reflexivity).
  destruct r.
  - destruct (p_status p) as [x|]; [|discriminate]. destruct (loaded x); [injection E as <- _ _; reflexivity|]. destruct (load_scan s file l) as [[[m am] em]|] eqn:Sc; [|discriminate]. injection E as <- _ _.
    cbn [flat_map]. rewrite elsewhere_app, GV, elsewhere_here, (IH _ _ _ eq_refl); [reflexivity|]. cbn. symmetry. apply R. reflexivity.
  - destruct (load_scan s file l) as [[[m am] em]|] eqn:Sc; [|discriminate]. injection E as <- _ _. cbn [flat_map]. rewrite !elsewhere_app, (IH _ _ _ eq_refl). reflexivity.
Qed.
Lemma Load_view s path li s' id al : Good s -> Load s path li = Some (s', (id, al)) ->
  elsewhere path (view s') = elsewhere path (view s) /\
  exists f x, In (id, f, Some x) (view s') /\ collapse f = collapse path /\
    ((exists e, In e (view s) /\ collapse (snd (fst e)) = collapse path) <-> al = true) /\
    ((view s' = view s /\ loaded x = true) \/
     (f = path /\ (forall g z, In (id, g, z) (view s) -> False) /\ forall e, In e (view s) -> collapse (snd (fst e)) = collapse path -> ~ usable (snd e))).
Proof.
  intros GS E. pose proof GS as (I & S & F). unfold Load in E. destruct (load_scan s path (plugins s)) as [[[l al'] e]|] eqn:Sc; [|discriminate].
  pose proof (scan_view _ _ _ _ _ _ Sc) as SV. destruct (load_scan_spec _ _ _ _ _ _ Sc) as (J & N & D & A & X).
  assert (AL : (exists e, In e (view s) /\ collapse (snd (fst e)) = collapse path) <-> al' = true).
  { rewrite A. split.
    - intros (en & Ie & Ce). rewrite view_gv in Ie. apply in_flat_map in Ie. destruct Ie as (a & Ia & Ie). unfold gv in Ie. destruct (getp s a) as [p|] eqn:G; [|destruct Ie]. destruct Ie as [<-|[]]. exists a, p. split; [exact Ia|split; [exact G|]]. exact (eq_sym Ce).
    - intros (a & p & Ia & G & SF). exists (vw p). split; [apply (in_view s a); assumption|]. exact (eq_sym SF). }
  destruct e as [k|].
  - injection E as <- <- <-. destruct X as (-> & a & p & x & Ia & G & <- & Sx & Lx & SF).
    assert (EQ : l = plugins s).
    { assert (H : forall l0 l1 al1 i, (forall b, In b l0 -> In b (plugins s)) -> NoDup l0 -> load_scan s path l0 = Some (l1, al1, Some i) -> l1 = l0).
      { induction l0 as [|b l0 IH]; intros l1 al1 i SB ND EE; cbn [load_scan] in EE; [discriminate|]. destruct (getp s b) as [q|] eqn:Gb; [|discriminate].
        destruct (UTIL_PathCmp_spec path (p_file q)) as (rr & PC & RR). rewrite PC in EE. inversion ND as [|? ? NI ND']; subst. destruct rr.
        - destruct (p_status q) as [z|]; [|discriminate]. destruct (loaded z) eqn:Lz; [injection EE as <- _ _; reflexivity|]. destruct (load_scan s path l0) as [[[m am] em]|] eqn:Sc0; [|discriminate]. injection EE as _ _ ->.
          destruct (load_scan_spec _ _ _ _ _ _ Sc0) as (_ & _ & _ & _ & X0). destruct X0 as (_ & c & t & y & Ic & T & _ & _ & _ & ST). exfalso.
          assert (c = b). { apply (F c b t q); auto; [apply SB; right; exact Ic|apply SB; left; reflexivity|]. unfold same_file in ST. rewrite <- ST. apply RR. reflexivity. } subst c. contradiction.
        - destruct (load_scan s path l0) as [[[m am] em]|] eqn:Sc0; [|discriminate]. injection EE as <- _ ->. f_equal. eapply IH; eauto. intros c Ic. apply SB. right. exact Ic. }
      exact (H _ _ _ _ (fun b Ib => Ib) (iv_nodup _ I) Sc). }
    assert (V : view (set_plugins l s) = view s) by (rewrite !view_gv, EQ; reflexivity).
    split; [rewrite V; reflexivity|]. exists (p_file p), x. rewrite V. split; [|split; [exact (eq_sym SF)|split; [exact AL|left; auto]]].
    replace (p_id p, p_file p, Some x) with (vw p) by (unfold vw; rewrite Sx; reflexivity). apply (in_view s a); assumption.
  - destruct (_Load (set_plugins l s) path li) as [[s1 a]|] eqn:L1; [|discriminate].
    assert (I1 : Inv (set_plugins l s)) by (apply Inv_sub; auto; apply N, I).
    destruct (_Load_spec _ _ _ _ _ I1 L1) as (Ea & I2 & P2 & _ & _ & _ & K2 & p & x & G2 & Ip & Fp & Sx). rewrite G2 in E.
    destruct (iter_plevent s1 OnLoad (p_id p)) as [s2|] eqn:It; [|discriminate]. injection E as <- <- <-. pose proof (same_frame _ _ (iter_same _ _ _ _ It)) as F2.
    rewrite (view_frame _ _ I2 F2). change (plugins (set_plugins l s)) with l in *.
    assert (V : view s1 = flat_map (gv s) l ++ [vw p]).
    { rewrite view_gv, P2, flat_map_app. cbn [flat_map]. rewrite (gv_get s1 a p G2). cbn [app]. f_equal. apply flat_map_ext_in'. intros b Ib. apply gv_keep; [apply (iv_get _ I b), J, Ib|]. intros q Q. exact (K2 b q Ib Q). }
    split.
    + rewrite V, elsewhere_app, SV, elsewhere_here by (cbn; rewrite Fp; reflexivity). rewrite List.app_nil_r, view_gv. reflexivity.
    + exists path, x. rewrite V. split; [apply in_or_app; right; left; unfold vw; rewrite Fp, Sx; reflexivity|]. split; [reflexivity|]. split; [exact AL|].
      right. split; [reflexivity|]. split.
      * intros g z Ig. rewrite view_gv in Ig. apply in_flat_map in Ig. destruct Ig as (b & Ib & Ig). unfold gv in Ig. destruct (getp s b) as [q|] eqn:Q; [|destruct Ig]. destruct Ig as [Ig|[]]. injection Ig as Ig _ _. pose proof (iv_id _ I b q Ib Q) as B. cbn in Ip. lia.
      * intros en Ie Ce US. rewrite view_gv in Ie. apply in_flat_map in Ie. destruct Ie as (b & Ib & Ie). unfold gv in Ie. destruct (getp s b) as [q|] eqn:Q; [|destruct Ie]. destruct Ie as [<-|[]]. cbn [snd fst vw] in *.
        assert (LQ : exists z, p_status q = Some z /\ loaded z = true) by (destruct US as [->| ->]; eauto). destruct LQ as (z & Z1 & Z2).
        assert (NI : In b l). { destruct (in_dec Nat.eq_dec b l) as [C|C]; [exact C|]. destruct (D b Ib C) as (q' & x' & G' & S' & L' & _). congruence. }
        exact (X b q NI Q (eq_sym Ce)).
Qed.

(** ** Lines *)
Definition holds (bl : buf * nat) (t : str) : Prop :=
  length (fst bl) = 256 /\ snd bl = length t /\ cstr (fst bl) = Some t.
Lemma put_spec bl t text : holds bl t -> ~ In NUL text -> exists bl', put bl text = Some bl' /\ holds bl' (firstn 255 (t ++ text)).
Proof.
  destruct bl as [b len]. intros (L & E & C) N. cbn [fst snd] in *. subst len. pose proof (cstr_length _ _ C) as CL. unfold put.
  assert (LS : length (skipn (length t) b) = 256 - length t) by (rewrite skipn_length, L; reflexivity).
  destruct (FormatArgs_spec (skipn (length t) b) (length b - length t) text) as (b' & k & F & C' & K & KL & SF); [lia|lia|exact N|].
  rewrite F. cbn [fst snd]. eexists. split; [reflexivity|]. unfold holds. cbn [fst snd].
  assert (FT : firstn (length t) b = t).
  { apply cstr_some in C. destruct C as (r & -> & _). rewrite firstn_app, Nat.sub_diag, firstn_all. cbn. apply List.app_nil_r. }
  assert (NT : ~ In NUL t) by (apply cstr_some in C; destruct C as (r & _ & X); exact X).
  assert (TT : firstn 255 (t ++ text) = t ++ firstn (length b - length t - 1) text).
  { rewrite firstn_app, firstn_all2 by lia. do 2 f_equal. lia. }
  rewrite TT, FT. repeat split.
  - destruct SF as [SF _]. rewrite app_length. rewrite <- SF, LS. lia.
  - rewrite app_length, K. reflexivity.
  - apply cstr_some in C'. destruct C' as (r & -> & NX). rewrite List.app_assoc. apply cstr_intro. intros J. apply in_app_or in J. tauto.
Qed.
Lemma firstn_firstn_app {A} (l1 l2 : list A) n : firstn n (firstn n l1 ++ l2) = firstn n (l1 ++ l2).
Proof.
  rewrite !firstn_app, firstn_firstn, Nat.min_id, firstn_length. f_equal.
  destruct (Nat.le_gt_cases n (length l1)); [|f_equal; lia]. replace (n - length l1) with 0 by lia. replace (n - Nat.min n (length l1)) with 0 by lia. reflexivity.
Qed.
Lemma put_more bl T text : holds bl (firstn 255 T) -> ~ In NUL text -> exists bl', put bl text = Some bl' /\ holds bl' (firstn 255 (T ++ text)).
Proof. intros H N. destruct (put_spec bl _ text H N) as (bl' & E & H'). exists bl'. split; [exact E|]. rewrite firstn_firstn_app in H'. exact H'. Qed.
Lemma put_if_more bl T pre text post : holds bl (firstn 255 T) -> ~ In NUL (pre ++ text ++ post) ->
  exists bl', put_if bl pre text post = Some bl' /\ holds bl' (firstn 255 (T ++ filled pre text post)).
Proof.
  intros H N. destruct text as [|c text]; cbn [put_if filled]; [|apply put_more; assumption]. exists bl. rewrite List.app_nil_r. auto.
Qed.
(** the first text of a line does not depend on what the array held *)
Lemma put_first (b : buf) text : length b = 256 -> ~ In NUL text -> exists bl', put (b, 0) text = Some bl' /\ holds bl' (firstn 255 text).
Proof.
  intros L N. unfold put. change (skipn 0 b) with b. rewrite Nat.sub_0_r. destruct (FormatArgs_spec b (length b) text) as (b' & k & F & C' & K & KL & SF); [lia|lia|exact N|].
  rewrite F. cbn [fst snd firstn List.app]. eexists. split; [reflexivity|]. unfold holds. cbn [fst snd]. destruct SF as [SF _]. rewrite L in *. auto.
Qed.
Lemma no_nul_lit (s : string) : forallb (fun c => negb (Ascii.eqb c NUL)) (list_ascii_of_string s) = true -> ~ In NUL (list_ascii_of_string s).
Proof. intros H J. rewrite forallb_forall in H. specialize (H _ J). discriminate. Qed.
Lemma no_nul_uint d : ~ In NUL (w_ (NilEmpty.string_of_uint d)).
Proof. induction d; cbn; [tauto|..]; intros [C|C]; try discriminate C; exact (IHd C). Qed.
Lemma no_nul_dec n : ~ In NUL (dec n).
Proof. unfold dec. destruct (Z.to_int n); cbn [NilEmpty.string_of_int]; [apply no_nul_uint|]. intros [C|C]; [discriminate C|]. exact (no_nul_uint _ C). Qed.
Lemma no_nul_dec02 n : ~ In NUL (dec02 n).
Proof. unfold dec02. destruct (_ && _); [|apply no_nul_dec]. intros [C|C]; [discriminate C|]. exact (no_nul_dec _ C). Qed.
Lemma nn_app (a b : str) : ~ In NUL a -> ~ In NUL b -> ~ In NUL (a ++ b).
Proof. intros A B J. apply in_app_or in J. tauto. Qed.
Lemma dec02_two n : (0 <= n)%Z -> dec02 n = two_digits n.
Proof. intros H. unfold dec02, two_digits. destruct (Z.leb_spec 0 n); [|lia]. reflexivity. Qed.

Section Lines.
Variable e : env.
Hypothesis TXT : forall api, ~ In NUL (e_name e api) /\ ~ In NUL (e_version e api) /\ ~ In NUL (e_author e api).
Lemma put_api_spec p api bl T : holds bl (firstn 255 T) -> p_api p = Some api -> ~ In NUL (p_file p) ->
  exists bl', put_api e p api bl = Some bl' /\ holds bl' (firstn 255 (T ++ described (e_name e) (e_version e) (e_author e) p)).
Proof.
  intros H A NF. destruct (TXT api) as (N1 & N2 & N3). unfold put_api, described. rewrite A.
  assert (K : forall nm, ~ In NUL nm -> exists bl', (do bl <- put bl (w_ " " ++ nm) ; do bl <- put_if bl (w_ " (") (e_version e api) (w_ ")") ; put_if bl (w_ " by ") (e_author e api) []) = Some bl' /\
     holds bl' (firstn 255 (T ++ t_ " " ++ nm ++ filled (t_ " (") (e_version e api) (t_ ")") ++ filled (t_ " by ") (e_author e api) []))).
  { intros nm NM. assert (N0 : ~ In NUL (w_ " " ++ nm)) by (apply nn_app; [apply no_nul_lit; reflexivity|exact NM]).
    destruct (put_more bl T (w_ " " ++ nm) H N0) as (b1 & -> & H1).
    destruct (put_if_more b1 _ (w_ " (") (e_version e api) (w_ ")") H1) as (b2 & -> & H2). { repeat apply nn_app; auto; apply no_nul_lit; reflexivity. }
    destruct (put_if_more b2 _ (w_ " by ") (e_author e api) [] H2) as (b3 & -> & H3). { repeat apply nn_app; auto. apply no_nul_lit; reflexivity. }
    exists b3. split; [reflexivity|]. rewrite <- !List.app_assoc in H3. exact H3. }
  destruct (e_name e api) as [|c nm]; apply K; assumption.
Qed.
Lemma list_line_spec s (b : buf) p : length b = 256 -> p_status p <> None -> (0 <= p_id p)%Z -> ~ In NUL (p_file p) -> (p_api p <> None -> callable s p = true) ->
  exists b', list_line e s b p = Some (b', firstn 255 (line (e_name e) (e_version e) (e_author e) (p_id p) p)) /\ length b' = 256.
Proof.
  intros L S Pid NF CA. unfold list_line. destruct (p_status p) as [x|] eqn:X; [|congruence].
  assert (HD : exists bl, line_head e b p = Some bl /\ holds bl (firstn 255 (t_ "  [" ++ two_digits (p_id p) ++ t_ "]" ++ word (p_status p)))).
  { rewrite <- (dec02_two _ Pid), X. unfold line_head, GetStatusText. rewrite X.
    assert (NN : forall t, ~ In NUL t -> exists bl, put (b, 0) (w_ "  [" ++ dec02 (p_id p) ++ t) = Some bl /\ holds bl (firstn 255 (w_ "  [" ++ dec02 (p_id p) ++ t))).
    { intros t Nt. apply put_first; [exact L|]. apply nn_app; [apply no_nul_lit; reflexivity|]. apply nn_app; [apply no_nul_dec02|exact Nt]. }
    destruct x; cbn iota.
    - apply (NN (w_ "] <NOFILE>")), no_nul_lit; reflexivity.
    - apply (NN (w_ "] <ERROR>")), no_nul_lit; reflexivity.
    - apply (NN (w_ "] <FAILED>")), no_nul_lit; reflexivity.
    - apply (NN (w_ "] <PAUSED>")), no_nul_lit; reflexivity.
    - cbn [word]. rewrite List.app_nil_r. apply (NN (w_ "]")), no_nul_lit; reflexivity. }
  destruct HD as (bl & -> & H).
  assert (HE : exists bl', line_tail e s p bl = Some bl' /\ holds bl' (firstn 255 (line (e_name e) (e_version e) (e_author e) (p_id p) p))).
  { unfold line, line_tail. rewrite X in H. rewrite X. destruct (p_api p) as [api|] eqn:A.
    - rewrite CA by congruence. destruct (put_api_spec p api bl _ H A NF) as (bl' & E' & H'). exists bl'. split; [exact E'|]. rewrite <- !List.app_assoc in H'. exact H'.
    - exists bl. split; [reflexivity|]. unfold described. rewrite A, List.app_nil_r. exact H. }
  destruct HE as (bl' & -> & H'). destruct H' as (L' & _ & C'). rewrite C'. eauto.
Qed.
Lemma list_lines_spec s : forall l (b : buf), length b = 256 ->
  (forall a, In a l -> exists p, getp s a = Some p /\ p_status p <> None /\ (0 <= p_id p)%Z /\ ~ In NUL (p_file p) /\ (p_api p <> None -> callable s p = true)) ->
  list_lines e s b l = Some (map (fun p => firstn 255 (line (e_name e) (e_version e) (e_author e) (p_id p) p)) (flat_map (fun a => match getp s a with Some p => [p] | None => [] end) l)).
Proof.
  induction l as [|a l IH]; intros b L H; [reflexivity|]. cbn [list_lines flat_map]. destruct (H a (or_introl eq_refl)) as (p & G & H1 & H2 & H3 & H4). rewrite G.
  destruct (list_line_spec s b p L H1 H2 H3 H4) as (b' & -> & L'). cbn [fst snd]. rewrite (IH b' L'); [reflexivity|]. intros c Ic. apply H. right. exact Ic.
Qed.
Definition visible (p : plugin) : bool :=
  match p_status p, p_api p with Some Running, Some a => e_running e a | _, _ => false end.
Lemma client_lines_spec s : forall l (b : buf) n, length b = 256 -> (0 <= n)%Z ->
  (forall a, In a l -> exists p, getp s a = Some p /\ p_status p <> None /\ ~ In NUL (p_file p) /\ (p_api p <> None -> callable s p = true)) ->
  client_lines e s b n l = Some (map (fun x => firstn 255 (line (e_name e) (e_version e) (e_author e) (fst x) (snd x)))
     (numbered (n + 1) (filter visible (flat_map (fun a => match getp s a with Some p => [p] | None => [] end) l)))).
Proof.
  induction l as [|a l IH]; intros b n L Hn H; [reflexivity|]. cbn [client_lines flat_map]. destruct (H a (or_introl eq_refl)) as (p & G & H1 & H2 & H3). rewrite G.
  assert (H' : forall c, In c l -> exists p, getp s c = Some p /\ p_status p <> None /\ ~ In NUL (p_file p) /\ (p_api p <> None -> callable s p = true)) by (intros c Ic; apply H; right; exact Ic).
  cbn [List.app filter]. unfold visible at 1. destruct (p_status p) as [x|] eqn:X; [|congruence].
  destruct x; cbn iota; try (apply IH; assumption).
  destruct (p_api p) as [api|] eqn:A; [|apply IH; assumption]. rewrite H3 by congruence. destruct (e_running e api); [|apply IH; assumption].
  cbn [numbered map fst snd]. unfold client_line.
  destruct (put_first b (w_ "  [" ++ dec02 (n + 1) ++ w_ "]") L) as (bl & -> & HB). { repeat apply nn_app; try apply no_nul_dec02; apply no_nul_lit; reflexivity. }
  destruct (put_api_spec p api bl _ HB A H2) as (bl' & -> & HB'). pose proof HB' as (L' & _ & C'). rewrite C'. cbn [fst snd].
  rewrite (IH (fst bl') (n + 1)%Z L'); [|lia|exact H']. f_equal. f_equal. unfold line. rewrite X, <- (dec02_two (n + 1)) by lia. cbn [word List.app]. rewrite <- !List.app_assoc. reflexivity.
Qed.
End Lines.
