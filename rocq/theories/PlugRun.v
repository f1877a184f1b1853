(** What every step of the plugin manager keeps. *)
From Coq Require Import List ZArith Bool Arith Ascii Lia.
From Verif Require Import Base ListModel StrModel StrSpec StrProofs PlugModel PlugProofs.
Import ListNotations.
Local Open Scope list_scope.
Local Open Scope nat_scope.
Notation length := List.length.

Definition Good (s : st) : Prop := Inv s /\ St s /\ Fi s.

(** Nothing is listed afterwards that was not listed before, except under a new id. *)
Definition older (s s' : st) : Prop :=
  (last s <= last s')%Z /\
  forall a p', In a (plugins s') -> getp s' a = Some p' ->
    (exists b p, In b (plugins s) /\ getp s b = Some p /\ p_id p' = p_id p /\ p_file p' = p_file p) \/ (last s <= p_id p')%Z.

Lemma older_refl s : older s s.
Proof. split; [lia|]. intros a p I G. left. eauto 10. Qed.
Lemma older_trans s1 s2 s3 : older s1 s2 -> older s2 s3 -> older s1 s3.
Proof.
  intros [A1 A2] [B1 B2]. split; [lia|]. intros a p I G. destruct (B2 a p I G) as [(b & q & Ib & Q & E1 & E2)|L]; [|right; lia].
  destruct (A2 b q Ib Q) as [(c & r & Ic & R & E3 & E4)|L]; [|right; lia]. left. exists c, r. repeat split; auto; congruence.
Qed.
Lemma older_frame s s' : Inv s -> frame s s' -> older s s'.
Proof.
  intros I F. split; [rewrite (fr_last _ _ F); lia|]. intros a p Ia G. rewrite (fr_plugins _ _ F) in Ia. destruct (frame_back _ _ _ _ I F Ia G) as (q & Q & V).
  left. exists a, q. repeat split; auto; [exact (vw_id _ _ V)|exact (vw_file _ _ V)].
Qed.
Lemma Good_frame s s' : frame s s' -> Good s -> Good s'.
Proof. intros F (I & S & Fi). split; [|split]; [eapply Inv_frame|eapply St_frame|eapply Fi_frame]; eassumption. Qed.
Lemma Good_same s s' : same s s' -> Good s -> Good s'.
Proof. intros F. apply Good_frame, same_frame, F. Qed.
Lemma older_same s s' : Inv s -> same s s' -> older s s'.
Proof. intros I F. apply older_frame; [exact I|apply same_frame, F]. Qed.

Lemma Good_sub s l : Good s -> NoDup l -> (forall a, In a l -> In a (plugins s)) -> Good (set_plugins l s).
Proof.
  intros (I & S & F) N J. split; [apply Inv_sub; assumption|]. split.
  - intros a p Ia G. exact (S a p (J a Ia) G).
  - intros a b p q Ia Ib Ga Gb. exact (F a b p q (J a Ia) (J b Ib) Ga Gb).
Qed.
Lemma older_sub s l : (forall a, In a l -> In a (plugins s)) -> older s (set_plugins l s).
Proof. intros J. split; [cbn; lia|]. intros a p Ia G. left. exists a, p. repeat split; auto. Qed.

(** ** Load *)
Definition same_file (file : str) (p : plugin) : Prop := collapse file = collapse (p_file p).
Lemma load_scan_spec s file : forall l l' al e, load_scan s file l = Some (l', al, e) ->
  (forall a, In a l' -> In a l) /\ (NoDup l -> NoDup l') /\
  (forall a, In a l -> ~ In a l' -> exists p x, getp s a = Some p /\ p_status p = Some x /\ loaded x = false /\ same_file file p) /\
  (al = true <-> exists a p, In a l /\ getp s a = Some p /\ same_file file p) /\
  match e with
  | Some id => al = true /\ exists a p x, In a l /\ getp s a = Some p /\ p_id p = id /\ p_status p = Some x /\ loaded x = true /\ same_file file p
  | None => forall a p, In a l' -> getp s a = Some p -> ~ same_file file p
  end.
Proof.
  induction l as [|a l IH]; intros l' al e E; cbn [load_scan] in E.
  - injection E as <- <- <-. split; [auto|]. split; [auto|]. split; [intros a []|]. split; [split; [discriminate|intros (a & p & [] & _)]|intros a p []].
  - destruct (getp s a) as [p|] eqn:G; [|discriminate]. destruct (UTIL_PathCmp_spec file (p_file p)) as (r & Er & Hr). rewrite Er in E. destruct r.
    + assert (SF : same_file file p) by (apply Hr; reflexivity).
      destruct (p_status p) as [x|] eqn:Sx; [|discriminate]. destruct (loaded x) eqn:Lx.
      * injection E as <- <- <-. split; [auto|]. split; [auto|]. split; [intros b Ib N; contradiction|]. split; [split; [|reflexivity]; intros _; exists a, p; repeat split; auto; left; reflexivity|].
        split; [reflexivity|]. exists a, p, x. repeat split; auto. left. reflexivity.
      * destruct (load_scan s file l) as [[[l1 al1] e1]|] eqn:L; [|discriminate]. injection E as <- <- <-. destruct (IH _ _ _ eq_refl) as (J & N & D & A & X).
        split; [intros b Ib; right; auto|]. split; [intros ND; apply N; inversion ND; assumption|].
        split. { intros b [<-|Ib] Nb; [exists p, x; auto|]. exact (D b Ib Nb). }
        split; [split; [|reflexivity]; intros _; exists a, p; repeat split; auto; left; reflexivity|].
        destruct e1 as [id|]; [|exact X]. destruct X as (_ & b & q & y & Ib & Q). split; [reflexivity|]. exists b, q, y. split; [right; exact Ib|exact Q].
    + assert (SF : ~ same_file file p) by (intros C; apply Hr in C; discriminate).
      destruct (load_scan s file l) as [[[l1 al1] e1]|] eqn:L; [|discriminate]. injection E as <- <- <-. destruct (IH _ _ _ eq_refl) as (J & N & D & A & X).
      split; [intros b [<-|Ib]; [left; reflexivity|right; auto]|].
      split. { intros ND. inversion ND; subst. constructor; [|apply N; assumption]. intros C. apply J in C. contradiction. }
      split. { intros b [<-|Ib] Nb; [exfalso; apply Nb; left; reflexivity|]. apply D; [exact Ib|]. intros C. apply Nb. right. exact C. }
      split. { rewrite A. split; intros (b & q & Ib & Q & F).
        - exists b, q. split; [right; exact Ib|auto].
        - destruct Ib as [<-|Ib]; [assert (q = p) by congruence; subst q; contradiction|]. exists b, q. auto. }
      destruct e1 as [id|].
      * destruct X as (-> & b & q & y & Ib & Q). split; [reflexivity|]. exists b, q, y. split; [right; exact Ib|exact Q].
      * intros b q [<-|Ib] Q; [assert (q = p) by congruence; subst q; exact SF|]. exact (X b q Ib Q).
Qed.
Lemma load_scan_total s file l : (forall a, In a l -> exists p, getp s a = Some p /\ p_status p <> None) -> exists r, load_scan s file l = Some r.
Proof.
  induction l as [|a l IH]; intros T; cbn [load_scan]; [eauto|]. destruct (T a (or_introl eq_refl)) as (p & -> & S).
  destruct (UTIL_PathCmp_spec file (p_file p)) as (r & -> & _). destruct IH as ([[l' al] e] & L); [intros b Ib; apply T; right; exact Ib|].
  destruct r; [|rewrite L; eauto]. destruct (p_status p) as [x|]; [|congruence]. destruct (loaded x); [eauto|]. rewrite L. eauto.
Qed.

(** Adding a plugin whose file is not listed yet. *)
Lemma _Load_Good s file li s' a : Good s -> (forall b q, In b (plugins s) -> getp s b = Some q -> ~ same_file file q) ->
  _Load s file li = Some (s', a) -> Good s' /\ older s s'.
Proof.
  intros (I & S & F) NF E. destruct (_Load_spec _ _ _ _ _ I E) as (_ & I' & P & L & _ & _ & K & p & x & G & Id & Fl & Sx).
  assert (B : forall b q, In b (plugins s') -> getp s' b = Some q -> (b = a /\ q = p) \/ (In b (plugins s) /\ exists r, getp s b = Some r /\ vw q = vw r)).
  { intros b q Ib Q. rewrite P in Ib. apply in_app_or in Ib. destruct Ib as [Ib|[<-|[]]].
    - right. split; [exact Ib|]. destruct (iv_get _ I b Ib) as (r & R). destruct (K b r Ib R) as (q' & Q' & V). exists r. split; [exact R|]. congruence.
    - left. split; congruence. }
  split; [split; [exact I'|split]|split].
  - intros b q Ib Q. destruct (B b q Ib Q) as [[-> ->]|(Ib' & r & R & V)]; [congruence|]. rewrite (vw_status _ _ V). exact (S b r Ib' R).
  - intros b c q r Ib Ic Q R E'. destruct (B b q Ib Q) as [[-> ->]|(Ib' & q0 & Q0 & V)], (B c r Ic R) as [[-> ->]|(Ic' & r0 & R0 & W)]; auto.
    + exfalso. apply (NF c r0 Ic' R0). unfold same_file. rewrite <- Fl, E'. f_equal. exact (vw_file _ _ W).
    + exfalso. apply (NF b q0 Ib' Q0). unfold same_file. rewrite <- Fl, <- E'. f_equal. exact (vw_file _ _ V).
    + apply (F b c q0 r0 Ib' Ic' Q0 R0). rewrite <- (vw_file _ _ V), <- (vw_file _ _ W). exact E'.
  - lia.
  - intros b q Ib Q. destruct (B b q Ib Q) as [[-> ->]|(Ib' & r & R & V)]; [right; lia|]. left. exists b, r. repeat split; auto; [exact (vw_id _ _ V)|exact (vw_file _ _ V)].
Qed.

Lemma Load_Good s file li s' id al : Good s -> Load s file li = Some (s', (id, al)) -> Good s' /\ older s s'.
Proof.
  intros GS E. unfold Load in E. destruct (load_scan s file (plugins s)) as [[[l al'] e]|] eqn:L; [|discriminate].
  destruct (load_scan_spec _ _ _ _ _ _ L) as (J & N & _ & _ & X).
  assert (GS1 : Good (set_plugins l s)) by (apply Good_sub; auto; apply N, GS). pose proof (older_sub s l J) as O1.
  destruct e as [id'|].
  - injection E as <- _ _. auto.
  - destruct (_Load (set_plugins l s) file li) as [[s1 a]|] eqn:L1; [|discriminate].
    destruct (_Load_Good _ _ _ _ _ GS1 X L1) as [GS2 O2].
    destruct (getp s1 a) as [p|]; [|discriminate]. destruct (iter_plevent s1 OnLoad (p_id p)) as [s2|] eqn:It; [|discriminate]. injection E as <- _ _.
    apply iter_same in It. split; [eapply Good_same; eassumption|]. eapply older_trans; [exact O1|]. eapply older_trans; [exact O2|]. apply older_same; [apply GS2|exact It].
Qed.

(** ** Unload *)
Lemma _Unload_Good s a force c s' r : Good s -> In a (plugins s) -> _Unload s a force c = Some (s', r) -> Good s' /\ older s s'.
Proof.
  intros (I & S & F) Ia E. destruct (_Unload_spec _ _ _ _ _ _ I Ia E) as (I' & L & _ & _ & P & K & _ & _).
  assert (SUB : forall b, In b (plugins s') -> In b (plugins s)).
  { destruct r; [|rewrite P; auto]. destruct P as (l1 & l2 & P1 & P2). rewrite P1, P2. intros b. apply in_mid. }
  assert (B : forall b q, In b (plugins s') -> getp s' b = Some q -> exists r, getp s b = Some r /\ vw q = vw r).
  { intros b q Ib Q. destruct (iv_get _ I b (SUB b Ib)) as (t & T). destruct (K b t Ib T) as (q' & Q' & V). exists t. split; [exact T|]. congruence. }
  split; [split; [exact I'|split]|split].
  - intros b q Ib Q. destruct (B b q Ib Q) as (t & T & V). rewrite (vw_status _ _ V). exact (S b t (SUB b Ib) T).
  - intros b d q t Ib Id Q T E'. destruct (B b q Ib Q) as (q0 & Q0 & V). destruct (B d t Id T) as (t0 & T0 & W).
    apply (F b d q0 t0 (SUB b Ib) (SUB d Id) Q0 T0). rewrite <- (vw_file _ _ V), <- (vw_file _ _ W). exact E'.
  - lia.
  - intros b q Ib Q. destruct (B b q Ib Q) as (t & T & V). left. exists b, t. repeat split; auto; [exact (vw_id _ _ V)|exact (vw_file _ _ V)].
Qed.
Lemma Unload_Good s id force c s' r : Good s -> Unload s id force c = Some (s', r) -> Good s' /\ older s s'.
Proof.
  intros GS E. unfold Unload in E. destruct (find_id s (plugins s) id) as [oa|] eqn:Fd; [|discriminate]. apply find_id_spec in Fd.
  destruct oa as [a|]; [|injection E as <- _; split; [exact GS|apply older_refl]]. destruct Fd as (Ia & p & G & _). rewrite G in E.
  destruct (_Unload s a force c) as [[s1 b]|] eqn:U; [|discriminate]. destruct (_Unload_Good _ _ _ _ _ _ GS Ia U) as [GS1 O1].
  destruct b; [|injection E as <- _; auto]. destruct (iter_plevent s1 OnUnload (p_id p)) as [s2|] eqn:It; [|discriminate]. injection E as <- _.
  apply iter_same in It. split; [eapply Good_same; eassumption|]. eapply older_trans; [exact O1|]. apply older_same; [apply GS1|exact It].
Qed.
Lemma UnloadAll_Good fuel : forall s cs s' r, Good s -> UnloadAll fuel s cs = Some (Some (s', r)) -> Good s' /\ older s s'.
Proof.
  induction fuel as [|f IH]; intros s cs s' r GS E; cbn [UnloadAll] in E; destruct (plugins s) as [|a l] eqn:P.
  - injection E as <- _. split; [exact GS|apply older_refl].
  - discriminate.
  - injection E as <- _. split; [exact GS|apply older_refl].
  - destruct (_Unload s a true (cs a)) as [[s1 b]|] eqn:U; [|discriminate]. destruct (_Unload_Good s a true (cs a) s1 b GS) as [GS1 O1]; [rewrite P; left; reflexivity|exact U|].
    destruct (UnloadAll f s1 cs) as [[[s2 b']|]|] eqn:R; try discriminate. injection E as <- _. destruct (IH _ _ _ _ GS1 R) as [GS2 O2]. split; [exact GS2|eapply older_trans; eassumption].
Qed.
(** With as many rounds as there are plugins it always comes to an end. *)
Lemma UnloadAll_total fuel : forall s cs r, Inv s -> length (plugins s) <= fuel -> UnloadAll fuel s cs = Some r ->
  exists s', r = Some (s', true) /\ plugins s' = [].
Proof.
  induction fuel as [|f IH]; intros s cs r I L E; cbn [UnloadAll] in E; destruct (plugins s) as [|a l] eqn:P.
  - injection E as <-. eauto.
  - cbn [List.length] in L. lia.
  - injection E as <-. eauto.
  - destruct (_Unload s a true (cs a)) as [[s1 b]|] eqn:U; [|discriminate].
    destruct (_Unload_spec s a true (cs a) s1 b I) as (I1 & _ & _ & _ & P1 & _ & _ & B); [rewrite P; left; reflexivity|exact U|]. rewrite (B eq_refl) in *.
    destruct P1 as (l1 & l2 & E1 & E2). assert (L1 : length (plugins s1) <= f).
    { assert (length (plugins s) = S (length (plugins s1))) by (rewrite E1, E2, !app_length; cbn [List.length]; lia). rewrite P in H. cbn [List.length] in *. lia. }
    destruct (UnloadAll f s1 cs) as [r'|] eqn:R; [|discriminate]. destruct (IH s1 cs r' I1 L1 R) as (s' & -> & P'). injection E as <-. exists s'. split; [reflexivity|exact P'].
Qed.

(** ** Pause, Unpause *)
Lemma with_status_frame1 a s p x : getp s a = Some p -> frame1 a s (setp s a (Some (with_status x p))).
Proof. intros G. apply (frame1_setp a s p); auto. Qed.
Lemma frame1_Good a s s' : Good s -> In a (plugins s) -> frame1 a s s' -> (forall p, getp s' a = Some p -> p_status p <> None) -> Good s' /\ older s s'.
Proof.
  intros (I & S & F) Ia F1 SA. pose proof (Inv_frame1 _ _ _ F1 I) as I'.
  assert (B : forall b q, In b (plugins s') -> getp s' b = Some q -> In b (plugins s) /\ exists r, getp s b = Some r /\ p_id q = p_id r /\ p_file q = p_file r /\ (b <> a -> p_status q = p_status r)).
  { intros b q Ib Q. rewrite (f1_plugins _ _ _ F1) in Ib. split; [exact Ib|]. destruct (iv_get _ I b Ib) as (r & R). destruct (f1_get _ _ _ F1 b r Ib R) as (q' & Q' & V). exists r. split; [exact R|]. congruence. }
  split; [split; [exact I'|split]|split].
  - intros b q Ib Q. destruct (Nat.eq_dec b a) as [->|N]; [exact (SA q Q)|]. destruct (B b q Ib Q) as (Ib' & t & T & _ & _ & V). rewrite (V N). exact (S b t Ib' T).
  - intros b d q t Ib Id Q T E'. destruct (B b q Ib Q) as (Ib' & q0 & Q0 & _ & V & _). destruct (B d t Id T) as (Id' & t0 & T0 & _ & W & _).
    apply (F b d q0 t0 Ib' Id' Q0 T0). congruence.
  - rewrite (f1_last _ _ _ F1). lia.
  - intros b q Ib Q. destruct (B b q Ib Q) as (Ib' & t & T & V & W & _). left. exists b, t. auto.
Qed.
Lemma _Pause_Good s a c s' r : Good s -> In a (plugins s) -> _Pause s a c = Some (s', r) -> Good s' /\ older s s'.
Proof.
  intros GS Ia E. unfold _Pause in E. destruct (getp s a) as [p|] eqn:G; [|discriminate]. destruct (p_status p) as [x|] eqn:X; [|discriminate].
  assert (ID : Some (s, false) = Some (s', r) -> Good s' /\ older s s') by (intros R; injection R as <- _; split; [exact GS|apply older_refl]).
  destruct x; auto. destruct (p_api p); auto.
  destruct (call_plugin s a (CPause a (snd c)) (fst c)) as [s1|] eqn:C; [|discriminate]. apply call_plugin_same in C.
  destruct (snd c).
  - destruct (getp s1 a) as [p1|] eqn:G1; [|discriminate]. injection E as <- _. apply (frame1_Good a); auto.
    + eapply frame1_trans; [apply frame_frame1, same_frame, C|]. eapply frame1_trans; [apply frame_frame1, frame_hooks|]. apply with_status_frame1. exact G1.
    + intros q. rewrite getp_setp_same; [|exact (getp_lt _ _ _ G1)]. intros Q. injection Q as <-. discriminate.
  - injection E as <- _. split; [eapply Good_same; eassumption|apply older_same; [apply GS|exact C]].
Qed.
Lemma _Unpause_Good s a c s' r : Good s -> In a (plugins s) -> _Unpause s a c = Some (s', r) -> Good s' /\ older s s'.
Proof.
  intros GS Ia E. unfold _Unpause in E. destruct (getp s a) as [p|] eqn:G; [|discriminate]. destruct (p_status p) as [x|] eqn:X; [|discriminate].
  assert (ID : Some (s, false) = Some (s', r) -> Good s' /\ older s s') by (intros R; injection R as <- _; split; [exact GS|apply older_refl]).
  destruct x; auto. destruct (p_api p); auto.
  destruct (call_plugin s a (CUnpause a (snd c)) (fst c)) as [s1|] eqn:C; [|discriminate]. apply call_plugin_same in C.
  destruct (snd c).
  - destruct (getp s1 a) as [p1|] eqn:G1; [|discriminate]. injection E as <- _. apply (frame1_Good a); auto.
    + eapply frame1_trans; [apply frame_frame1, same_frame, C|]. eapply frame1_trans; [apply frame_frame1, frame_hooks|]. apply with_status_frame1. exact G1.
    + intros q. rewrite getp_setp_same; [|exact (getp_lt _ _ _ G1)]. intros Q. injection Q as <-. discriminate.
  - injection E as <- _. split; [eapply Good_same; eassumption|apply older_same; [apply GS|exact C]].
Qed.
Lemma Pause_Good s id c s' r : Good s -> Pause s id c = Some (s', r) -> Good s' /\ older s s'.
Proof.
  intros GS E. unfold Pause in E. destruct (find_id s (plugins s) id) as [oa|] eqn:Fd; [|discriminate]. apply find_id_spec in Fd.
  destruct oa as [a|]; [|injection E as <- _; split; [exact GS|apply older_refl]]. destruct Fd as (Ia & p & G & _).
  destruct (_Pause s a c) as [[s1 b]|] eqn:U; [|discriminate]. destruct (_Pause_Good _ _ _ _ _ GS Ia U) as [GS1 O1].
  destruct b; [|injection E as <- _; auto]. destruct (getp s1 a) as [p1|]; [|discriminate]. destruct (iter_plevent s1 OnPause (p_id p1)) as [s2|] eqn:It; [|discriminate]. injection E as <- _.
  apply iter_same in It. split; [eapply Good_same; eassumption|]. eapply older_trans; [exact O1|]. apply older_same; [apply GS1|exact It].
Qed.
Lemma Unpause_Good s id c s' r : Good s -> Unpause s id c = Some (s', r) -> Good s' /\ older s s'.
Proof.
  intros GS E. unfold Unpause in E. destruct (find_id s (plugins s) id) as [oa|] eqn:Fd; [|discriminate]. apply find_id_spec in Fd.
  destruct oa as [a|]; [|injection E as <- _; split; [exact GS|apply older_refl]]. destruct Fd as (Ia & p & G & _).
  destruct (_Unpause s a c) as [[s1 b]|] eqn:U; [|discriminate]. destruct (_Unpause_Good _ _ _ _ _ GS Ia U) as [GS1 O1].
  destruct b; [|injection E as <- _; auto]. destruct (getp s1 a) as [p1|]; [|discriminate]. destruct (iter_plevent s1 OnUnpause (p_id p1)) as [s2|] eqn:It; [|discriminate]. injection E as <- _.
  apply iter_same in It. split; [eapply Good_same; eassumption|]. eapply older_trans; [exact O1|]. apply older_same; [apply GS1|exact It].
Qed.

(** ** Retry *)
Lemma Inv_lower s z : Inv s -> (1 <= z)%Z -> (forall a p, In a (plugins s) -> getp s a = Some p -> (p_id p < z)%Z) -> Inv (set_last z s).
Proof.
  intros I Z1 Z2. split; try apply I.
  - intros a p Ia G. destruct (iv_id _ I a p Ia G). split; [exact H|]. exact (Z2 a p Ia G).
  - exact Z1.
Qed.

Lemma Retry_Good s id li c s' r : Good s -> Retry s id li c = Some (s', r) -> Good s' /\ older s s'.
Proof.
  intros GS E. pose proof GS as (I & S & F). unfold Retry in E. destruct (find_id s (plugins s) id) as [oa|] eqn:Fd; [|discriminate]. apply find_id_spec in Fd.
  destruct oa as [a|]; [|injection E as <- _; split; [exact GS|apply older_refl]]. destruct Fd as (Ia & p & G & Eid). rewrite G in E.
  destruct (p_status p) as [x|] eqn:X; [|discriminate]. destruct (loaded x) eqn:Lx; [injection E as <- _; split; [exact GS|apply older_refl]|].
  destruct (_Load s (p_file p) li) as [[s1 b]|] eqn:L; [|discriminate].
  destruct (_Load_spec _ _ _ _ _ I L) as (Eb & I1 & P1 & L1 & _ & _ & K1 & q & y & G1 & Iq & Fq & Y).
  rewrite G1, Y in E. assert (NE : b <> a) by (pose proof (listed_lt _ _ I Ia); lia).
  assert (NB : ~ In b (plugins s)) by (intros C; pose proof (listed_lt _ _ I C); lia).
  assert (IaP : In a (plugins s1)) by (rewrite P1; apply in_or_app; left; exact Ia).
  assert (IbP : In b (plugins s1)) by (rewrite P1; apply in_or_app; right; left; reflexivity).
  destruct (loaded y).
  - destruct (_Unload s1 a true c) as [[s2 bb]|] eqn:U; [|discriminate].
    destruct (_Unload_spec _ _ _ _ _ _ I1 IaP U) as (I2 & L2 & _ & _ & P2 & K2 & _ & Bt). rewrite (Bt eq_refl) in *. destruct P2 as (l1 & l2 & P2a & P2b).
    assert (Ib2 : In b (plugins s2)) by (rewrite P2b; apply (in_mid_ne l1 a l2); [rewrite <- P2a; exact IbP|exact NE]).
    assert (Na2 : ~ In a (plugins s2)).
    { rewrite P2b. pose proof (iv_nodup _ I1) as N. rewrite P2a in N. exact (proj2 (NoDup_mid _ _ _ N)). }
    destruct (K2 b q Ib2 G1) as (q2 & G2 & V2). rewrite G2 in E. injection E as <- _.
    set (s3 := setp s2 b (Some (with_id id q2))). pose proof (getp_lt _ _ _ G2) as Lb.
    (* what is listed at the end *)
    assert (B : forall d t, In d (plugins s2) -> getp s3 d = Some t ->
       (d = b /\ t = with_id id q2) \/ (In d (plugins s) /\ d <> a /\ d <> b /\ exists t0, getp s d = Some t0 /\ vw t = vw t0 /\ getp s2 d = Some t)).
    { intros d t Id T. unfold s3 in T. rewrite getp_setp in T by exact Lb. destruct (Nat.eqb_spec d b) as [->|N]; [left; split; congruence|]. right.
      assert (Id1 : In d (plugins s1)) by (rewrite P2a; apply in_mid; rewrite <- P2b; exact Id).
      assert (Id0 : In d (plugins s)) by (rewrite P1 in Id1; apply in_app_or in Id1; destruct Id1 as [?|[?|[]]]; [assumption|congruence]).
      split; [exact Id0|]. split; [intros ->; contradiction|]. split; [exact N|].
      destruct (iv_get _ I d Id0) as (t0 & T0). destruct (K1 d t0 Id0 T0) as (t1 & T1 & W1). destruct (K2 d t1 Id T1) as (t2 & T2 & W2). exists t0. split; [exact T0|]. assert (t2 = t) by congruence. subst t2. split; [congruence|exact T2]. }
    assert (B2 : forall d t, In d (plugins s2) -> getp s3 d = Some t -> exists e t0, In e (plugins s) /\ getp s e = Some t0 /\ p_id t = p_id t0 /\ p_file t = p_file t0 /\ (d = b -> e = a) /\ (d <> b -> e = d) /\ (d <> b -> p_status t = p_status t0)).
    { intros d t Id T. destruct (B d t Id T) as [[-> ->]|(Id0 & Nda & Ndb & t0 & T0 & W & _)].
      - exists a, p. repeat split; auto; try congruence. cbn [p_file with_id]. rewrite (vw_file _ _ V2). exact Fq.
      - exists d, t0. repeat split; auto; [exact (vw_id _ _ W)|exact (vw_file _ _ W)|congruence|]. intros _. exact (vw_status _ _ W). }
    assert (INJ : forall d1 d2 e, In d1 (plugins s2) -> In d2 (plugins s2) -> (d1 = b -> e = a) -> (d1 <> b -> e = d1) -> (d2 = b -> e = a) -> (d2 <> b -> e = d2) -> d1 = d2).
    { intros d1 d2 e I1' I2' A1 A2 A3 A4. destruct (Nat.eq_dec d1 b) as [->|N1], (Nat.eq_dec d2 b) as [->|N2]; auto.
      - exfalso. specialize (A1 eq_refl). specialize (A4 N2). subst. contradiction.
      - exfalso. specialize (A3 eq_refl). specialize (A2 N1). subst. contradiction.
      - rewrite <- (A2 N1), <- (A4 N2). reflexivity. }
    assert (I3 : Inv s3).
    { split; cbn [plugins last s3 setp set_heap]; try apply I2.
      - intros d Id. unfold s3. rewrite getp_setp by exact Lb. destruct (d =? b); [eauto|]. apply (iv_get _ I2). exact Id.
      - intros d t Id T. destruct (B2 d t Id T) as (e & t0 & Ie & T0 & E1 & _). rewrite E1. destruct (iv_id _ I e t0 Ie T0). lia.
      - intros d1 d2 t1 t2 Id1 Id2 T1 T2 E'. destruct (B2 d1 t1 Id1 T1) as (e1 & u1 & Ie1 & U1 & F1 & _ & A1 & A2 & _). destruct (B2 d2 t2 Id2 T2) as (e2 & u2 & Ie2 & U2 & F2 & _ & A3 & A4 & _).
        assert (e1 = e2) by (apply (iv_ids _ I e1 e2 u1 u2); auto; congruence). subst e2. apply (INJ d1 d2 e1); auto.
      - intros u Iu. cbn [pend heap plugins set_heap setp s3]. rewrite setnth_length. apply (iv_pend _ I2). exact Iu. }
    assert (I4 : Inv (set_last (last s2 - 1) s3)).
    { apply Inv_lower; [exact I3|pose proof (iv_last _ I); lia|]. intros d t Id T. destruct (B2 d t Id T) as (e & t0 & Ie & T0 & E1 & _). destruct (iv_id _ I e t0 Ie T0). lia. }
    change (last s3) with (last s2). split; [split; [exact I4|split]|split].
    + intros d t Id T. destruct (Nat.eq_dec d b) as [->|N].
      * destruct (B b t Id T) as [[_ ->]|(_ & _ & C & _)]; [|congruence]. cbn [p_status with_id]. rewrite (vw_status _ _ V2). congruence.
      * destruct (B2 d t Id T) as (e & t0 & Ie & T0 & _ & _ & _ & _ & Es). rewrite (Es N). exact (S e t0 Ie T0).
    + intros d1 d2 t1 t2 Id1 Id2 T1 T2 E'. destruct (B2 d1 t1 Id1 T1) as (e1 & u1 & Ie1 & U1 & _ & F1 & A1 & A2 & _). destruct (B2 d2 t2 Id2 T2) as (e2 & u2 & Ie2 & U2 & _ & F2 & A3 & A4 & _).
      assert (e1 = e2) by (apply (F e1 e2 u1 u2); auto; congruence). subst e2. apply (INJ d1 d2 e1); auto.
    + cbn [last set_last]. lia.
    + intros d t Id T. left. destruct (B2 d t Id T) as (e & t0 & Ie & T0 & E1 & E2 & _). eauto 10.
  - destruct (_Unload s1 b true c) as [[s2 bb]|] eqn:U; [|discriminate].
    destruct (_Unload_spec _ _ _ _ _ _ I1 IbP U) as (I2 & L2 & _ & _ & P2 & K2 & _ & Bt). rewrite (Bt eq_refl) in *. destruct P2 as (l1 & l2 & P2a & P2b). injection E as <- _.
    assert (Nb2 : ~ In b (plugins s2)).
    { rewrite P2b. pose proof (iv_nodup _ I1) as N. rewrite P2a in N. exact (proj2 (NoDup_mid _ _ _ N)). }
    assert (B : forall d t, In d (plugins s2) -> getp s2 d = Some t -> In d (plugins s) /\ exists t0, getp s d = Some t0 /\ vw t = vw t0).
    { intros d t Id T. assert (Id1 : In d (plugins s1)) by (rewrite P2a; apply in_mid; rewrite <- P2b; exact Id).
      assert (Id0 : In d (plugins s)) by (rewrite P1 in Id1; apply in_app_or in Id1; destruct Id1 as [?|[?|[]]]; [assumption|congruence]). split; [exact Id0|].
      destruct (iv_get _ I d Id0) as (t0 & T0). destruct (K1 d t0 Id0 T0) as (t1 & T1 & W1). destruct (K2 d t1 Id T1) as (t2 & T2 & W2). exists t0. split; [exact T0|]. congruence. }
    split; [split; [|split]|split].
    + apply Inv_lower; [exact I2|pose proof (iv_last _ I); lia|]. intros d t Id T. destruct (B d t Id T) as (Id0 & t0 & T0 & W). rewrite (vw_id _ _ W). destruct (iv_id _ I d t0 Id0 T0). lia.
    + intros d t Id T. destruct (B d t Id T) as (Id0 & t0 & T0 & W). rewrite (vw_status _ _ W). exact (S d t0 Id0 T0).
    + intros d1 d2 t1 t2 Id1 Id2 T1 T2 E'. destruct (B d1 t1 Id1 T1) as (Id1' & u1 & U1 & W1). destruct (B d2 t2 Id2 T2) as (Id2' & u2 & U2 & W2).
      apply (F d1 d2 u1 u2 Id1' Id2' U1 U2). rewrite <- (vw_file _ _ W1), <- (vw_file _ _ W2). exact E'.
    + cbn [last set_last]. lia.
    + intros d t Id T. left. destruct (B d t Id T) as (Id0 & t0 & T0 & W). exists d, t0. repeat split; auto; [exact (vw_id _ _ W)|exact (vw_file _ _ W)].
Qed.

(** ** SetAllLoaded *)
Lemma all_loop_same l : forall s cs s', all_loop s l cs = Some s' -> same s s'.
Proof.
  induction l as [|a l IH]; intros s cs s' E; cbn [all_loop] in E; [injection E as <-; split; reflexivity|].
  destruct (getp s a) as [p|]; [|discriminate]. destruct (p_status p) as [x|]; [|discriminate]. destruct x; try (exact (IH _ _ _ E)).
  destruct (p_api p); [|exact (IH _ _ _ E)]. destruct (call_plugin s a (CAllLoaded a) (cs a)) as [s1|] eqn:C; [|discriminate]. eapply same_trans; [eapply call_plugin_same; exact C|exact (IH _ _ _ E)].
Qed.
Lemma Good_eq s s' : heap s' = heap s -> plugins s' = plugins s -> last s' = last s -> pend s' = pend s -> Good s -> Good s' /\ older s s'.
Proof.
  intros H P L Q (I & S & F). assert (G : forall a, getp s' a = getp s a) by (intros a; unfold getp; rewrite H; reflexivity). split; [split; [|split]|split].
  - split.
    + rewrite P. apply I.
    + intros a. rewrite P, G. apply I.
    + intros a p. rewrite P, G, L. apply I.
    + intros a b p q. rewrite P, !G. apply I.
    + rewrite L. apply I.
    + unfold pendok. rewrite Q, H, P. apply I.
  - intros a p. rewrite P, G. apply S.
  - intros a b p q. rewrite P, !G. apply F.
  - lia.
  - intros a p. rewrite P, G. intros Ia Ga. left. eauto 10.
Qed.

(** ** All steps *)
Lemma step_Good s o s' r : Good s -> step s o = Some (s', r) -> Good s' /\ older s s'.
Proof.
  intros GS E. destruct o; cbn [step] in E.
  - destruct (Load s file li) as [[s1 [id al]]|] eqn:L; [|discriminate]. injection E as <- _. eapply Load_Good; eassumption.
  - destruct (Unload s id force c) as [[s1 b]|] eqn:L; [|discriminate]. injection E as <- _. eapply Unload_Good; eassumption.
  - destruct (Pause s id c) as [[s1 b]|] eqn:L; [|discriminate]. injection E as <- _. eapply Pause_Good; eassumption.
  - destruct (Unpause s id c) as [[s1 b]|] eqn:L; [|discriminate]. injection E as <- _. eapply Unpause_Good; eassumption.
  - destruct (Retry s id li c) as [[s1 b]|] eqn:L; [|discriminate]. injection E as <- _. eapply Retry_Good; eassumption.
  - destruct (UnloadAll (length (plugins s)) s cs) as [[[s1 b]|]|] eqn:L; try discriminate. injection E as <- _. eapply UnloadAll_Good; eassumption.
  - unfold SetAllLoaded in E. destruct (allloaded s); [injection E as <- _; split; [exact GS|apply older_refl]|].
    destruct (all_loop (set_allloaded true s) (plugins s) cs) as [s1|] eqn:A; [|discriminate]. injection E as <- _.
    destruct (Good_eq s (set_allloaded true s) eq_refl eq_refl eq_refl eq_refl GS) as [G1 O1]. apply all_loop_same in A. split; [eapply Good_same; eassumption|]. eapply older_trans; [exact O1|apply older_same; [apply G1|exact A]].
  - destruct (existsb (Nat.eqb a) (plugins s)); [|injection E as <- _; split; [exact GS|apply older_refl]]. destruct (getp s a) as [p|]; [|discriminate]. destruct (p_status p) as [x|]; [|discriminate].
    destruct (loaded x); [|injection E as <- _; split; [exact GS|apply older_refl]]. destruct (run_acts a s acts) as [s1|] eqn:R; [|discriminate]. injection E as <- _. apply run_acts_same in R.
    split; [eapply Good_same; eassumption|apply older_same; [apply GS|exact R]].
  - injection E as <- _. apply Good_eq; auto.
  - destruct (depth s) as [|n]; [injection E as <- _; split; [exact GS|apply older_refl]|]. destruct (Good_eq s (set_depth n s) eq_refl eq_refl eq_refl eq_refl GS) as [G1 O1].
    destruct n; [|injection E as <- _; auto]. destruct (resolve_pending false (set_depth 0 s)) as [s1|] eqn:R; [|discriminate]. injection E as <- _.
    destruct (resolve_pending_frame _ _ _ (iv_pend _ (proj1 G1)) R) as [Fr _]. split; [eapply Good_frame; eassumption|]. eapply older_trans; [exact O1|apply older_frame; [apply G1|exact Fr]].
  - destruct (resolve_pending true s) as [s1|] eqn:R; [|discriminate]. injection E as <- _. destruct (resolve_pending_frame _ _ _ (iv_pend _ (proj1 GS)) R) as [Fr _].
    split; [eapply Good_frame; eassumption|apply older_frame; [apply GS|exact Fr]].
Qed.
Lemma run_Good ops : forall s s' rs, Good s -> run s ops = Some (s', rs) -> Good s' /\ older s s'.
Proof.
  induction ops as [|o ops IH]; intros s s' rs GS E; cbn [run] in E; [injection E as <- _; split; [exact GS|apply older_refl]|].
  destruct (step s o) as [[s1 r]|] eqn:S; [|discriminate]. cbn [fst] in E. destruct (run s1 ops) as [[s2 rs']|] eqn:R; [|discriminate]. injection E as <- _.
  destruct (step_Good _ _ _ _ GS S) as [G1 O1]. destruct (IH _ _ _ G1 R) as [G2 O2]. split; [exact G2|eapply older_trans; eassumption].
Qed.
Lemma init_Good : Good init.
Proof. exact Inv_init. Qed.
