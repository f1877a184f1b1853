(** Facts about whole traces that follow from the rules for single observations. *)
From Coq Require Import List Bool Arith ZArith Lia Sorted.
From Verif Require Import ProtoModel ProtoSpec ProtoProofs ShModel ShRun ShLists ShInv ShMan ShHooks ShAdd ShRem ShApi ShUnload ShHist ShGood ShSpec ShView ShAbs ShFrames ShRel ShCalls ShMoves ShChange ShMgr ShOrder ShOwned ShFollow ShRefine ShTrace ShLoop ShAhead ShExact ShSkip.
Import ListNotations.
Local Open Scope nat_scope.

(** Every observation obeys the rules for the hooks of its time. *)
Lemma tracks_snoc : forall s A l s' A' e s1 x, tracks s A l s' A' -> allowed (s_h s') A' e -> step s' e = Ok s1 ->
  astep (s_h s') (s_h s1) A' (b_pend (s_b s')) e = Some x -> tracks s A (l ++ [e]) s1 (as_fr x).
Proof. intros s A l s' A' e s1 x T. induction T; intros Al E Ea; cbn [app]; [econstructor; eauto; constructor|]. econstructor; eauto. Qed.
Lemma tracks_app : forall s A l s1 A1 l' s' A', tracks s A l s1 A1 -> tracks s1 A1 l' s' A' -> tracks s A (l ++ l') s' A'.
Proof. intros s A l s1 A1 l' s' A' T. induction T; intros T'; cbn [app]; [exact T'|]. econstructor; eauto. Qed.

Definition all_ok (m0 : Z -> Z) (t : list obs) : Prop := forall t2 o t1, t = t2 ++ o :: t1 -> exists h, obs_ok m0 h t1 o.
Lemma all_ok_tail : forall m0 o t, all_ok m0 (o :: t) -> all_ok m0 t.
Proof. intros m0 o t H t2 o' t1 E. apply (H (o :: t2) o' t1). now rewrite E. Qed.

Lemma app_cases : forall (X : Type) (a b c : list X) (o : X) d, a ++ b = c ++ o :: d -> (exists d', a = c ++ o :: d' /\ d = d' ++ b) \/ (exists c', b = c' ++ o :: d /\ c = a ++ c').
Proof.
  intros X a. induction a as [|y a IH]; intros b c o d E; cbn [app] in E; [right; exists c; auto|].
  destruct c as [|z c]; cbn [app] in E; injection E as -> E; [left; exists a; auto|].
  destruct (IH b c o d E) as [(d' & -> & ->)|(c' & -> & ->)]; [left; exists d'; auto|right; exists c'; auto].
Qed.

Theorem obs_rules : forall m0 s A l s' A', (forall a, Z.odd (m0 a) = false) -> LInv m0 s A -> tracks s A l s' A' ->
  exists new, h_tr (s_h s') = new ++ h_tr (s_h s) /\
  forall t2 o t1, new = t2 ++ o :: t1 ->
    exists l1 e l2 q B, l = l1 ++ e :: l2 /\ tracks s A l1 q B /\ obs_ok m0 (s_h q) (t1 ++ h_tr (s_h s)) o.
Proof.
  intros m0 s A l s' A' Ev L T. induction T as [s A|s A e s1 x l s' A' Al E Ea T IH].
  - exists []. split; [reflexivity|]. intros t2 o t1 X. destruct t2; discriminate.
  - destruct (step_loop m0 s A e s1 Ev L Al E) as (x' & new1 & Ea' & L' & Sn & _ & _ & _ & Ob). assert (x' = x) by congruence. subst x'.
    unfold since in Sn. destruct (IH L') as (new2 & Sn2 & Ob2). exists (new2 ++ new1). split; [rewrite Sn2, Sn; apply app_assoc|].
    intros t2 o t1 X. apply app_cases in X. destruct X as [(d' & X & ->)|(c' & X & ->)].
    + destruct (Ob2 _ _ _ X) as (l1 & e' & l2 & q & B & -> & T1 & O1). exists (e :: l1), e', l2, q, B. split; [reflexivity|]. split; [econstructor; eauto|].
      rewrite <- app_assoc, <- Sn. exact O1.
    + exists [], e, l, s, A. split; [reflexivity|]. split; [constructor|]. exact (Ob _ _ _ X).
Qed.

(** ** What a view can look like *)
Record facts (v : view) : Prop := {
  fa_pre : NoDup (vw_pre v); fa_pst : NoDup (vw_pst v);
  fa_ign : vw_ign v = true -> vw_pre v = [] /\ vw_pst v = [] /\ vw_res1 v = [] /\ vw_res2 v = [] /\ vw_rec v = false;
  fa_one : vw_norig v <= 1;
  fa_no : vw_post v = false -> vw_pst v = [] /\ vw_res2 v = [];
  fa_orig : vw_norig v = 1 -> superceded (vw_res1 v) = false;
  fa_post : vw_post v = true -> vw_norig v = if superceded (vw_res1 v) then 0 else 1;
  fa_val : vw_orig v <> None -> vw_norig v = 1;
  fa_known : vw_post v = true -> vw_norig v = 1 -> vw_orig v <> None }.
Lemma facts_begin : forall s a p i, facts (vw_begin s a p i).
Proof. intros. constructor; cbn; auto using NoDup_nil; intros; try discriminate; congruence. Qed.
Lemma facts_continue : forall s a p v, facts v -> facts (vw_continue s a p v).
Proof. intros s a p v []. constructor; cbn; auto; discriminate. Qed.

Lemma all_facts : forall m0 t, all_ok m0 t -> forall F, facts (see t F).
Proof.
  intros m0 t. induction t as [|o t IH]; intros H F; [apply (facts_begin 0 0 0 false)|].
  destruct (H [] o t eq_refl) as [h O]. specialize (IH (all_ok_tail _ _ _ H)). pose proof (IH F) as [P1 P2 P3 P4 P5 P6 P7 P8 P9].
  destruct o as [f s a p k|f n hd ip p|f n r z|f n r z|f c th p|f z|f|f z| | | | | | | | |]; cbn [see]; auto;
    (destruct (Nat.eqb_spec f F) as [->|Nf]; [|apply IH]); cbn [obs_ok] in O.
  - destruct k; [apply facts_begin|apply facts_begin|apply facts_continue, IH].
  - destruct O as (O1 & O2 & O3 & O4 & O5 & _). unfold vw_call, vw_ran in *. destruct (vw_post (see t F)) eqn:Ep;
      (constructor; cbn [vw_pre vw_pst vw_ign vw_norig vw_post vw_res1 vw_res2 vw_rec vw_orig]; auto; try (constructor; assumption); try congruence).
  - destruct O as [O1 O2]. assert (Ni : vw_ign (see t F) = false).
    { destruct (vw_ign (see t F)) eqn:Ei; [|reflexivity]. destruct (P3 eq_refl) as (Q1 & Q2 & _). unfold vw_ran in O1. rewrite Q1, Q2 in O1. destruct (vw_post _); discriminate. }
    unfold vw_result, in_loop in *. destruct (vw_post (see t F)) eqn:Ep;
      (constructor; cbn [vw_pre vw_pst vw_ign vw_norig vw_post vw_res1 vw_res2 vw_rec vw_orig]; auto; try congruence); destruct O2 as [O2|O2]; try discriminate; rewrite O2; congruence.
  - destruct O as (O1 & O2 & O3). assert (Ni : vw_ign (see t F) = false).
    { destruct (vw_ign (see t F)) eqn:Ei; [|reflexivity]. destruct (P3 eq_refl) as (Q1 & Q2 & _). unfold vw_ran in O1. rewrite Q1, Q2 in O1. destruct (vw_post _); discriminate. }
    unfold vw_recall, vw_result, in_loop in *. destruct (vw_post (see t F)) eqn:Ep;
      (constructor; cbn [vw_pre vw_pst vw_ign vw_norig vw_post vw_res1 vw_res2 vw_rec vw_orig]; auto; try congruence); destruct O2 as [O2|O2]; try discriminate; rewrite O2; congruence.
  - destruct O as (O1 & O2 & O3 & O4 & _). constructor; cbn [vw_origcall vw_pre vw_pst vw_ign vw_norig vw_post vw_res1 vw_res2 vw_rec vw_orig]; auto; try congruence; lia.
  - destruct O as (O1 & O2 & O3). constructor; cbn [vw_origret vw_pre vw_pst vw_ign vw_norig vw_post vw_res1 vw_res2 vw_rec vw_orig]; auto; try congruence.
  - destruct O as (O1 & O2 & _). constructor; cbn [vw_enter_post vw_pre vw_pst vw_ign vw_norig vw_post vw_res1 vw_res2 vw_rec vw_orig]; auto; try congruence.
Qed.

(** A call's object and parameter *)
Lemma see_params : forall t F slot this p k, In (OBegin F slot this p k) t -> NoDup (flat_map begins t) ->
  vw_slot (see t F) = slot /\ vw_this (see t F) = this /\ vw_param (see t F) = p /\ (vw_ign (see t F) = match k with KIgnored => true | _ => false end).
Proof.
  intros t F slot this p k. induction t as [|o t IH]; intros I N; [contradiction|].
  assert (Nt : NoDup (flat_map begins t)). { destruct o; cbn [flat_map begins app] in N; auto. now inversion N. }
  destruct o as [f s a q j|f n hd ip q|f n r z|f n r z|f c th q|f z|f|f z| | | | | | | | |];
    try (destruct I as [I|I]; [discriminate|]; specialize (IH I Nt); cbn [see]; auto;
         (destruct (f =? F); [|auto]); unfold vw_call, vw_recall, vw_result; destruct (vw_post (see t F)); cbn in *; auto).
  cbn [see]. destruct (Nat.eqb_spec f F) as [->|Nf].
  - cbn [flat_map begins app] in N. inversion N as [|? ? NI _]; subst. destruct I as [I|I].
    + injection I as <- <- <- <-. destruct j; cbn; auto.
    + exfalso. apply NI. apply in_flat_map. eexists. split; [exact I|]. cbn. auto.
  - destruct I as [I|I]; [congruence|auto].
Qed.

(** ** Calls that run no handlers any more *)
Definition alive_in (F : nat) (A : list aframe) : Prop := exists f a, In f A /\ af_id f = F /\ af_hook f = Some a /\ a_alive a = true.
Definition is_handler (F : nat) (o : obs) : Prop := match o with OHandler G _ _ _ _ => G = F | _ => False end.
Definition handled (F : nat) (w : world) : Prop := exists o, In o (w_obs w) /\ is_handler F o.
Definition out_alive (F : nat) (a : ahook) (w : world) (o : aout) : Prop :=
  match o with AStop a' _ => a_alive a' = a_alive a | AFin _ _ => True end /\
  forall G, handled G (out_w o) -> handled G w \/ G = F /\ a_alive a = true.
Lemma handled_emit : forall G o w, handled G (wemit o w) -> is_handler G o \/ handled G w.
Proof. intros G o w (o' & [->|I'] & H); [left; exact H|right; eexists; eauto]. Qed.
Lemma handled_close : forall G d w, handled G (close d w) -> handled G w.
Proof.
  intros G d w (o & I' & H). destruct (close_obs d w) as (l & E & Fl). rewrite E in I'. apply in_app_or in I'.
  destruct I' as [I'|I']; [|exists o; auto]. rewrite Forall_forall in Fl. destruct (Fl _ I') as (p & y & ->). contradiction.
Qed.
Lemma next_alive : forall h a post from x, next h a post from = Some x -> a_alive a = true.
Proof. intros h a post from [vp k] E. now destruct (next_in _ _ _ _ _ _ E) as (_ & H & _). Qed.
Lemma post_alive : forall h F d a from w, out_alive F a w (a_post h F d a from w).
Proof.
  intros. unfold a_post. destruct (next h a true from) as [x|] eqn:E; (split; [cbn; auto|]); intros G H; cbn [a_start out_w] in H; apply handled_emit in H; cbn [is_handler] in H.
  - apply next_alive in E. destruct H as [->|H]; auto.
  - destruct H as [[]|H]. left. eapply handled_close; eauto.
Qed.
Lemma begin_post_alive : forall h F d a from w, out_alive F a w (a_begin_post h F d a from w).
Proof.
  intros. unfold a_begin_post. destruct (post_alive h F d (a_with_v (vs_prev MIgnored (a_v a)) a) from (wemit (OPost F) w)) as [H1 H2].
  split; [exact H1|]. intros G H. destruct (H2 G H) as [H'|H']; [|now right]. apply handled_emit in H'. destruct H' as [[]|H']. now left.
Qed.
Lemma pre_alive : forall h F d a from w, out_alive F a w (a_pre h F d a from w).
Proof.
  intros. unfold a_pre. destruct (next h a false from) as [x|] eqn:E.
  - split; [reflexivity|]. intros G H. cbn [a_start out_w] in H. apply handled_emit in H. apply next_alive in E. cbn [is_handler] in H. destruct H as [->|H]; auto.
  - destruct (_ && _); [|apply begin_post_alive]. split; [reflexivity|]. intros G H. apply handled_emit in H. destruct H as [[]|H]. now left.
Qed.
Lemma done_alive : forall h F d a z w, out_alive F a w (a_done h F d a z w).
Proof.
  intros. unfold a_done. destruct (a_run a) as [[vp n]|]; [|split; auto].
  assert (H : forall o a1, a_alive a1 = a_alive a -> out_alive F a1 (wemit (OHandlerRet F n (v_cur (a_v a)) z) w) o -> out_alive F a w o).
  { intros o a1 Ea [H1 H2]. unfold out_alive. rewrite <- Ea. split; [exact H1|]. intros G H. destruct (H2 G H) as [H'|H']; [|now right]. apply handled_emit in H'. destruct H' as [[]|H']. now left. }
  destruct (a_phase a); (eapply H; [|apply pre_alive || apply post_alive]; reflexivity).
Qed.
Definition tame (A : list aframe) (w : world) (x : astate) : Prop :=
  (forall G, alive_in G (as_fr x) -> alive_in G A) /\ (forall G, handled G (as_w x) -> handled G w \/ alive_in G A).
Lemma take_alive : forall A A1 G, take_ign A = Some A1 -> alive_in G A1 -> alive_in G A.
Proof.
  intros A. induction A as [|k A IH]; intros A1 G Et H; cbn [take_ign] in Et; [discriminate|]. destruct (af_hook k) eqn:Eh; [discriminate|].
  destruct (af_ign k).
  - injection Et as <-. destruct H as (f & a & [<-|I'] & E1 & E2 & E3); [discriminate|]. exists f, a. split; [now right|auto].
  - destruct (take_ign A) as [r|] eqn:Er; [|discriminate]. injection Et as <-. destruct H as (f & a & [<-|I'] & E1 & E2 & E3); [congruence|].
    destruct (IH r G eq_refl) as (f' & a' & I2 & H2); [exists f, a; auto|]. exists f', a'. split; [now right|exact H2].
Qed.
Lemma unwind_tame : forall h A aft z w, tame A w (a_unwind h aft z A w).
Proof.
  intros h A. induction A as [|f A IH]; intros aft z w.
  - destruct aft; cbn; split; auto.
  - destruct aft; cbn [a_unwind].
    + split; auto.
    + unfold a_reset. destruct (take_ign (f :: A)) as [A1|] eqn:Et; [|split; auto]. split; cbn [as_fr as_w].
      * intros G. now apply take_alive.
      * intros G H. left. eapply handled_close; eauto.
    + destruct (af_hook f) as [a|] eqn:Eh; [|split; auto].
      destruct (done_alive h (af_id f) (depth A) (a_with_v (vs_cur MSupercede (a_v a)) a) z w) as [D1 D2].
      destruct (a_done _ _ _ _ _ _) as [a' w'|z' w']; cbn [as_fr as_w out_w] in *.
      * split.
        -- intros G (g & b & [<-|I'] & E1 & E2 & E3); cbn [af_hook af_id] in *.
           ++ injection E2 as <-. exists f, a. split; [now left|]. split; [exact E1|]. split; [exact Eh|]. rewrite D1 in E3. exact E3.
           ++ exists g, b. split; [now right|auto].
        -- intros G H. destruct (D2 G H) as [H'|[-> H']]; [now left|right]. exists f, a. split; [now left|auto].
      * destruct (IH (af_after f) z' w') as [I1 I2]. split.
        -- intros G H. destruct (I1 G H) as (g & b & I' & H'). exists g, b. split; [now right|exact H'].
        -- intros G H. destruct (I2 G H) as [H'|(g & b & I' & H')].
           ++ destruct (D2 G H') as [H2|[-> H2]]; [now left|right]. exists f, a. split; [now left|auto].
           ++ right. exists g, b. split; [now right|exact H'].
Qed.
Lemma resume_tame : forall h o F aft A a w, out_alive F a w o ->
  (forall G, alive_in G (as_fr (a_resume h o F aft A)) -> alive_in G A \/ G = F /\ a_alive a = true) /\
  (forall G, handled G (as_w (a_resume h o F aft A)) -> handled G w \/ alive_in G A \/ G = F /\ a_alive a = true).
Proof.
  intros h o F aft A a w [O1 O2]. destruct o as [a' w'|z w']; cbn [a_resume as_fr as_w out_w] in *.
  - split.
    + intros G (g & b & [<-|I'] & E1 & E2 & E3); cbn [af_hook af_id] in *; [|left; exists g, b; auto]. injection E2 as <-. right. split; congruence.
    + intros G H. destruct (O2 G H) as [H'|H']; auto.
  - destruct (unwind_tame h A aft z w') as [U1 U2]. split; [auto|]. intros G H. destruct (U2 G H) as [H'|H']; [|auto]. destruct (O2 G H') as [H2|H2]; auto.
Qed.
Lemma no_handled : forall G p, ~ handled G (World p []).
Proof. intros G p (o & [] & _). Qed.
Lemma astep_alive : forall h h' A p e x G, astep h h' A p e = Some x -> G <> h_nxt h ->
  (alive_in G (as_fr x) -> alive_in G A) /\ (handled G (as_w x) -> alive_in G A).
Proof.
  intros h h' A p e x G E N.
  assert (Api : forall q, (alive_in G (as_fr (AState (map (refresh h') A) (World q []))) -> alive_in G A) /\ (handled G (as_w (AState (map (refresh h') A) (World q []))) -> alive_in G A)).
  { intros q. split; [|intros H; now apply no_handled in H]. intros (f & a & I' & E1 & E2 & E3). cbn [as_fr] in I'. apply in_map_iff in I'. destruct I' as (g & <- & I').
    cbn [refresh af_id af_hook] in *. destruct (af_hook g) as [b|] eqn:Eg; [|discriminate]. cbn [option_map] in E2. injection E2 as <-. cbn [a_refresh a_alive] in E3.
    apply andb_prop in E3. exists g, b. intuition. }
  destruct e; cbn [astep] in E; try (injection E as <-; apply Api).
  - injection E as <-. destruct (is_hookcode _).
    + destruct (take_ign A) as [A1|] eqn:Et.
      * unfold a_ignored. match goal with |- context [a_resume _ (a_pre ?h ?F ?d ?a ?from ?w) ?F ?aft ?B] => destruct (resume_tame h (a_pre h F d a from w) F aft B a w (pre_alive h F d a from w)) as [R1 R2] end.
        split; intros H.
        -- destruct (R1 G H) as [H'|[H' _]]; [|congruence]. eapply take_alive; eauto.
        -- destruct (R2 G H) as [H'|[H'|[H' _]]]; [|eapply take_alive; eauto|congruence]. apply handled_emit in H'. destruct H' as [[]|H']. now apply no_handled in H'.
      * unfold a_hooked. match goal with |- context [a_resume _ (a_pre ?h ?F ?d ?a ?from ?w) ?F ?aft ?B] => destruct (resume_tame h (a_pre h F d a from w) F aft B a w (pre_alive h F d a from w)) as [R1 R2] end.
        split; intros H.
        -- destruct (R1 G H) as [H'|[H' _]]; [auto|congruence].
        -- destruct (R2 G H) as [H'|[H'|[H' _]]]; [|auto|congruence]. apply handled_emit in H'. destruct H' as [[]|H']. now apply no_handled in H'.
    + split; intros H.
      * destruct H as (f & a & [<-|I'] & E1 & E2 & E3); [discriminate|]. exists f, a. auto.
      * apply handled_emit in H. destruct H as [[]|H]. now apply no_handled in H.
  - injection E as <-. destruct (is_hookcode _).
    + unfold a_ignored. match goal with |- context [a_resume _ (a_pre ?h ?F ?d ?a ?from ?w) ?F ?aft ?B] => destruct (resume_tame h (a_pre h F d a from w) F aft B a w (pre_alive h F d a from w)) as [R1 R2] end.
      split; intros H.
      * destruct (R1 G H) as [H'|[H' _]]; [auto|congruence].
      * destruct (R2 G H) as [H'|[H'|[H' _]]]; [|auto|congruence]. apply handled_emit in H'. destruct H' as [[]|H']. now apply no_handled in H'.
    + split; intros H.
      * destruct H as (f & a & [<-|I'] & E1 & E2 & E3); [discriminate|]. exists f, a. auto.
      * apply handled_emit in H. destruct H as [[]|H]. now apply no_handled in H.
  - destruct A as [|f A]; [discriminate|].
    assert (Up : alive_in G A -> alive_in G (f :: A)) by (intros (g & b & I' & H'); exists g, b; split; [now right|exact H']).
    destruct (af_hook f) as [a|] eqn:Eh.
    + assert (Go : forall o a1 w, out_alive (af_id f) a1 w o -> a_alive a1 = a_alive a -> (forall g, ~ handled g w) ->
        (alive_in G (as_fr (a_resume h o (af_id f) (af_after f) A)) -> alive_in G (f :: A)) /\ (handled G (as_w (a_resume h o (af_id f) (af_after f) A)) -> alive_in G (f :: A))).
      { intros o a1 w O Ea Hw. destruct (resume_tame h o (af_id f) (af_after f) A a1 w O) as [R1 R2].
        assert (Me : G = af_id f /\ a_alive a1 = true -> alive_in G (f :: A)). { intros [-> H]. exists f, a. split; [now left|]. split; [reflexivity|]. split; [exact Eh|congruence]. }
        split; intros H.
        - destruct (R1 G H) as [H'|H']; auto.
        - destruct (R2 G H) as [H'|[H'|H']]; auto. now apply Hw in H'. }
      destruct (a_run a); injection E as <-.
      * eapply Go; [apply done_alive|reflexivity|]. intros g. apply no_handled.
      * eapply Go; [apply begin_post_alive|reflexivity|]. intros g H. apply handled_emit in H. destruct H as [[]|H]. now apply no_handled in H.
    + injection E as <-. destruct (af_ign f).
      * assert (Hw : forall d, handled G (close d (wemit (ONativeRet (af_id f) v) (World p []))) -> False).
        { intros d H. apply handled_close, handled_emit in H. destruct H as [[]|H]. now apply no_handled in H. }
        destruct (af_after f); cbn [as_fr as_w]; split; intros H; auto; exfalso; try (eapply Hw; eauto; fail); apply handled_emit in H; destruct H as [[]|H]; now apply no_handled in H.
      * destruct (unwind_tame h A (af_after f) v (wemit (ONativeRet (af_id f) v) (World p []))) as [U1 U2]. split; intros H; [auto|].
        destruct (U2 G H) as [H'|H']; [|auto]. apply handled_emit in H'. destruct H' as [[]|H']. now apply no_handled in H'.
  - destruct A as [|f A]; [discriminate|]. destruct (af_hook f) as [a|] eqn:Eh; [|discriminate]. destruct (a_run a); [|discriminate]. injection E as <-. cbn [as_fr as_w]. split; intros H.
    + destruct H as (g & b & [<-|I'] & E1 & E2 & E3); cbn [af_id af_hook] in *; [injection E2 as <-; exists f, a; split; [now left|auto]|exists g, b; split; [now right|auto]].
    + now apply no_handled in H.
  - destruct A as [|f A]; [discriminate|]. destruct (af_hook f) as [a|] eqn:Eh; [|discriminate]. destruct (a_run a) as [[vp n]|]; [|discriminate]. injection E as <-. unfold a_recall.
    set (f1 := AFrame (af_id f) (af_after f) false _).
    assert (Up : alive_in G (f1 :: A) -> alive_in G (f :: A)).
    { intros (g & b & [<-|I'] & E1 & E2 & E3); cbn [f1 af_id af_hook] in *; [injection E2 as <-; discriminate|exists g, b; split; [now right|auto]]. }
    match goal with |- context [a_resume _ ?o ?F ?aft ?B] => set (o1 := o) end.
    assert (O1 : exists a2 w, out_alive (h_nxt h) a2 w o1 /\ forall g, ~ handled g w).
    { assert (Hw : forall g, ~ handled g (wemit (OBegin (h_nxt h) (a_slot a) (a_this a) param (KRecall (af_id f))) (wemit (ORecall (af_id f) n res val) (World p [])))).
      { intros g H. apply handled_emit in H. destruct H as [[]|H]. apply handled_emit in H. destruct H as [[]|H]. now apply no_handled in H. }
      unfold o1. destruct (a_phase a); eexists _, _; (split; [apply pre_alive || apply begin_post_alive|exact Hw]). }
    destruct O1 as (a2 & w & O1 & Hw). destruct (resume_tame h o1 (h_nxt h) ARecall (f1 :: A) a2 w O1) as [R1 R2]. split; intros H.
    + destruct (R1 G H) as [H'|[H' _]]; [auto|congruence].
    + destruct (R2 G H) as [H'|[H'|[H' _]]]; [now apply Hw in H'|auto|congruence].
Qed.

(** An activation that is alive is on a slot with hooks. *)
Lemma rel_alive : forall h vs susp fr cs A f a, rel h vs susp fr cs A -> In f A -> af_hook f = Some a -> a_alive a = true -> hookedb h (a_slot a) = true.
Proof.
  intros h vs susp fr cs A f a R. induction R as [|fid aft fr cs A R IH Na|fid fr c cs A R IH Es Eo Ev|susp fid aft hi fr c cs a0 A R IH F]; intros I' Eh Ea; [contradiction| | |];
    (destruct I' as [<-|I']; [|auto]); cbn [af_hook] in Eh; try discriminate.
  injection Eh as ->. pose proof (fc_live _ _ _ _ _ _ (fo_core _ _ _ _ _ _ _ _ _ F)) as Lv. rewrite Ea in Lv. destruct Lv as (v & [L1 L2 _ _ _]).
  unfold hookedb. apply existsb_exists. exists v. split; [exact L1|]. now apply Z.eqb_eq.
Qed.
Theorem dead_run : forall m0 F s A l s' A', (forall a, Z.odd (m0 a) = false) -> tracks s A l s' A' -> LInv m0 s A ->
  F < h_nxt (s_h s) -> ~ alive_in F A ->
  ~ alive_in F A' /\ exists new, h_tr (s_h s') = new ++ h_tr (s_h s) /\ forall o, In o new -> ~ is_handler F o.
Proof.
  intros m0 F s A l s' A' Ev T. induction T as [s A|s A e s1 x l s' A' Al E Ea T IH]; intros L HF D.
  - split; [exact D|]. exists []. auto.
  - destruct (step_loop m0 s A e s1 Ev L Al E) as (x' & new1 & Ea' & L' & Sn & _ & Hn & Hnn & _). assert (x' = x) by congruence. subst x'.
    pose proof (step_nxt m0 s A e s1 Ev (li_c _ _ _ L) Al E) as Nx.
    destruct (astep_alive _ _ _ _ _ _ F Ea) as [H1 H2]; [lia|].
    destruct (IH L') as (D' & new2 & Sn2 & O2); [destruct (opens e); lia|tauto|]. split; [exact D'|]. exists (new2 ++ new1). split; [unfold since in Sn; rewrite Sn2, Sn; apply app_assoc|].
    intros o I' Ho. apply in_app_or in I'. destruct I' as [I'|I']; [exact (O2 o I' Ho)|]. destruct (runs e) eqn:Hr.
    + apply D, H2. exists o. rewrite <- (Hn eq_refl). auto.
    + specialize (Hnn eq_refl). rewrite Forall_forall in Hnn. specialize (Hnn _ I'). destruct o; contradiction.
Qed.
