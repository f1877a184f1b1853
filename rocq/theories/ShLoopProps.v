(** Properties of running hook functions: C04-C07, C10-C16, C19, C21, C22.

    [play mem l s A]: the history [l] leads from the initial state to [s] and
    every event of it keeps to the rules [allowed] of ShRefine.v (C21 states
    them and shows that they are enough); [mem]: the vtable contents before
    SourceHook touched them; [A]: the running calls, told without SourceHook's
    internals (ShAbs.v).
    [see t F]: what the trace [t] tells about the call [F] (ShTrace.v). *)
From Coq Require Import List Bool Arith ZArith Lia.
From Verif Require Import ProtoModel ProtoSpec ProtoProofs ShModel ShRun ShLists ShInv ShMan ShHooks ShAdd ShRem ShApi ShUnload ShHist ShGood ShSpec ShView ShAbs ShFrames ShRel ShCalls ShMoves ShChange ShMgr ShOrder ShOwned ShFollow ShRefine ShTrace ShLoop ShAhead ShExact ShSkip ShRules ShReady ShPlay ShClient ShApiProps.
Import ListNotations.
Local Open Scope nat_scope.

(** ** For the examples *)
Definition ex_play (l : list event) : option (state * list aframe) := trackb ex_init [] l.
Definition ex_at (l : list event) : state := match ex_play l with Some x => fst x | None => ex_init end.
Definition ex_fr (l : list event) : list aframe := match ex_play l with Some x => snd x | None => [] end.
Definition ex_fine (l : list event) : bool := match ex_play l with Some _ => true | None => false end.
Lemma ex_pfs_wf : forall f i, ex_pfs f = Some i -> proto_wf (pf_proto i).
Proof.
  intros f i. unfold ex_pfs. destruct (Z.eqb f 100); [intros E; injection E as <-; reflexivity|].
  destruct (Z.eqb f 101); [intros E; injection E as <-; reflexivity|discriminate].
Qed.
Lemma ex_even : forall a, Z.odd (ex_mem a) = false.
Proof. intros a. unfold ex_mem. rewrite Z.odd_mul. reflexivity. Qed.
Lemma ex_plays : forall l, ex_fine l = true -> play ex_mem l (ex_at l) (ex_fr l).
Proof.
  intros l H. split; [apply ex_even|]. exists ex_pfs, (fun _ => 5000%Z). split; [apply ex_pfs_wf|]. apply trackb_ok. fold ex_init.
  unfold ex_fine, ex_at, ex_fr in *. fold (ex_play l). destruct (ex_play l) as [[s A]|]; [reflexivity|discriminate].
Qed.
Lemma trackb_app : forall l1 s A s1 A1 l2 r, trackb s A l1 = Some (s1, A1) -> trackb s1 A1 l2 = r -> trackb s A (l1 ++ l2) = r.
Proof.
  induction l1 as [|e l1 IH]; intros s A s1 A1 l2 r H H2; cbn [trackb app] in *; [injection H as <- <-; exact H2|].
  destruct (allowedb _ _ _); [|discriminate]. destruct (step s e); try discriminate. destruct (astep _ _ _ _ e); [|discriminate]. eauto.
Qed.
Lemma trackb_prefix : forall l1 s A l2 r, trackb s A (l1 ++ l2) = Some r -> exists s1 A1, trackb s A l1 = Some (s1, A1) /\ trackb s1 A1 l2 = Some r.
Proof.
  induction l1 as [|e l1 IH]; intros s A l2 r H; cbn [trackb app] in *; [eauto|].
  destruct (allowedb _ _ _); [|discriminate]. destruct (step s e); try discriminate. destruct (astep _ _ _ _ e); [|discriminate]. eauto.
Qed.
Lemma ex_tracks : forall l l', ex_fine (l ++ l') = true -> tracks (ex_at l) (ex_fr l) l' (ex_at (l ++ l')) (ex_fr (l ++ l')).
Proof.
  intros l l' H. unfold ex_fine, ex_at, ex_fr, ex_play in *. destruct (trackb ex_init [] (l ++ l')) as [[s A]|] eqn:E; [|discriminate].
  destruct (trackb_prefix _ _ _ _ _ E) as (s1 & A1 & E1 & E2). rewrite E1. cbn [fst snd]. now apply trackb_ok.
Qed.
Lemma ex_during : forall (P : state -> Prop) Pb l l', (forall s, Pb s = true -> P s) -> ex_fine (l ++ l') = true -> duringb Pb (ex_at l) (ex_fr l) l' = true ->
  during P (ex_at l) (ex_fr l) l' (ex_at (l ++ l')) (ex_fr (l ++ l')).
Proof. intros P Pb l l' HP H D. eapply duringb_ok; eauto. now apply ex_tracks. Qed.

(** Five hooks on the function in slot 2 of object 1000, one of them paused, one
    on another object of the same class; the handlers' names are 41-46. *)
Definition ex_setup : list event :=
  [EAddHook 1 ANormal 1000 0 100 41 false; EAddHook 2 AVP 1000 0 101 42 false; EAddHook 1 ANormal 1000 0 100 43 false;
   EAddHook 1 ANormal 1000 0 100 44 true; EAddHook 2 ANormal 1200 0 101 45 false; EAddHook 2 AVP 1000 0 101 46 true; EAddHook 1 ANormal 1000 0 100 47 false;
   EPause 7 true].

(** ** C04 Which handlers run, and in which order *)
(** During the call [F] of the function at [slot] of the object [this], the
    hooks there (and for the whole vtable) do not change.  Then: the handlers
    called so far are a beginning of the list of unpaused hooks: first those of
    the object, then those of the vtable, each in the order of the lists (which
    is the order in which they were added: C01_add); once the original function
    has been called or the post handlers have begun, all pre handlers have
    run; when the call is over, all post handlers have. *)
Theorem C04_order : forall mem l0 s A e s1 A1 l s' A' F slot this p, play mem l0 s A -> tracks s A [e] s1 A1 ->
  In (OBegin F slot this p KNormal) (h_tr (s_h s1)) -> ~ In (OBegin F slot this p KNormal) (h_tr (s_h s)) ->
  during (fun q => same_hooks (s_h s1) (s_h q) slot this) s1 A1 l s' A' ->
  let v := see (h_tr (s_h s')) F in
  let pre := map hk_nid (active (loop_hooks (s_h s1) slot this false)) in
  let post := map hk_nid (active (loop_hooks (s_h s1) slot this true)) in
  vw_rec v = false ->
  (exists r, pre = rev (vw_pre v) ++ r) /\ (exists r, post = rev (vw_pst v) ++ r) /\
  (vw_norig v <> 0 \/ vw_post v = true -> rev (vw_pre v) = pre) /\
  (over (h_tr (s_h s')) F -> rev (vw_pre v) = pre /\ rev (vw_pst v) = post).
Proof.
  intros mem l0 s A e s1 A1 l s' A' F slot this p Pl T B NB D v pre post Hr.
  pose proof (proj1 Pl) as Ev. destruct (play_inv _ _ _ _ Pl) as [L S].
  inversion T as [|? ? ? ? x ? ? ? Al E Ea T']; subst. inversion T'; subst. clear T T'.
  destruct (step_loop mem s A e s1 Ev L Al E) as (x' & new & Ea' & L1 & Sn & Ep & Hn & Hnn & _). assert (x' = x) by congruence. subst x'. unfold since in Sn.
  assert (B1 : In (OBegin F slot this p KNormal) (w_obs (as_w x))).
  { rewrite Sn in B. apply in_app_iff in B. destruct B as [B|B]; [|contradiction]. destruct (runs e) eqn:Er; [now rewrite (Hn eq_refl) in B|].
    exfalso. specialize (Hnn eq_refl). rewrite Forall_forall in Hnn. now apply Hnn in B. }
  pose proof (fresh_course _ _ _ _ _ _ _ _ _ _ Ev L Al E Ea B1) as C.
  destruct (course_run _ _ _ _ _ _ _ _ _ _ Ev D L1 C) as [L' [_ C']].
  assert (Pl' : play mem (l0 ++ e :: l) s' A').
  { replace (l0 ++ e :: l) with (l0 ++ [e] ++ l) by reflexivity. eapply play_more; [exact Pl|]. eapply tracks_app; [|eapply during_tracks; exact D]. econstructor; eauto. constructor. }
  assert (Ids : forall b, loop_ids (s_h s') slot this b = map hk_nid (active (loop_hooks (s_h s1) slot this b))).
  { intros b. apply same_ids. exact (during_end _ _ _ _ _ _ D). }
  assert (Bg : In F (flat_map begins (h_tr (s_h s')))).
  { destruct (obs_rules _ _ _ _ _ _ Ev L1 (during_tracks _ _ _ _ _ _ D)) as (nw & -> & _). rewrite flat_map_app. apply in_app_iff. right. apply in_flat_map. eexists. split; [exact B|]. now left. }
  pose proof (play_over _ _ _ _ F Pl' Bg) as Ov.
  fold v in C'. fold (pre) in Ids. assert (I1 := Ids false). assert (I2 := Ids true). fold pre in I1. fold post in I2.
  destruct C' as [C'|[C'|C']]; [congruence| |].
  - destruct C' as (N & f & B0 & a & EA & Ef & Eh & (_ & _ & _ & Ph)). rewrite I1, I2 in Ph.
    assert (In F (map af_id A')) by (rewrite EA, map_app; apply in_app_iff; right; left; exact Ef).
    split; [|split; [|split]].
    + destruct (a_phase a); [destruct Ph as (_ & _ & _ & Ph)|destruct Ph as (_ & _ & Ph)|destruct Ph as (_ & Ph & _)]; [rewrite <- Ph; eauto|exists []; now rewrite app_nil_r|exists []; now rewrite app_nil_r].
    + destruct (a_phase a); [destruct Ph as (_ & -> & _)|destruct Ph as (_ & -> & _)|destruct Ph as (_ & _ & <-)]; [exists post; reflexivity|exists post; reflexivity|eauto].
    + destruct (a_phase a); [destruct Ph as (P1 & _ & P2 & _)|intros _; apply Ph|intros _; apply Ph]. intros [H1|H1]; congruence.
    + intros O. apply Ov in O. contradiction.
  - destruct C' as (NI & D1 & D2 & D3). rewrite I1 in D2. rewrite I2 in D3. split; [exists []; now rewrite app_nil_r|]. split; [exists []; now rewrite app_nil_r|]. auto.
Qed.
Print Assumptions C04_order.

(** Every handler that is called belongs to a hook that is installed at that
    moment, is not paused, and hooks the function being called, for the object
    or for all objects with its vtable; it is the function given to AddHook and
    gets the caller's arguments and the object pointer adjusted to the
    interface the hook was added for; and it has not run in this loop before. *)
Theorem C04_handlers : forall mem l s A t2 F n hd ip q t1, play mem l s A -> h_tr (s_h s) = t2 ++ OHandler F n hd ip q :: t1 ->
  exists slot this k, In (OBegin F slot this q k) t1 /\
  let v := see t1 F in ~ In n (vw_ran v) /\ k <> KIgnored /\
  exists l1 e l2 s1 A1, l = l1 ++ e :: l2 /\ play mem l1 s1 A1 /\
  exists adj kk, (adj = this \/ adj = 0%Z) /\ In kk (installed (s_h s1) slot adj (vw_post v)) /\
    hk_nid kk = n /\ hk_handler kk = hd /\ hk_paused kk = false /\ ip = (this - hk_offs kk)%Z.
Proof.
  intros mem l s A t2 F n hd ip q t1 Pl E.
  destruct (play_rules _ _ _ _ _ _ _ Pl E) as (l1 & e & l2 & s1 & A1 & El & Pl1 & (O1 & O2 & O3 & O4 & O5 & vp & kk & O6 & O7 & O8 & O9 & O10 & _)).
  destruct (play_params _ _ _ _ _ _ _ F Pl E eq_refl) as (slot & this & p & k & I1 & _ & V1 & V2 & V3 & V4).
  exists slot, this, k. rewrite O4, V3. split; [exact I1|]. cbn zeta. split; [exact O5|]. split; [intros ->; rewrite O1 in V4; discriminate|].
  exists l1, e, l2, s1, A1. split; [exact El|]. split; [exact Pl1|]. exists (if vp then 0%Z else this), kk. rewrite V1, V2 in *. destruct vp; auto 10.
Qed.
Print Assumptions C04_handlers.

(** Example: a call of the function in slot 2 of object 1000 that runs to its
    end: handlers 41, 43 (object), 42 (vtable), the original function, 44
    (object), 46 (vtable); not the paused 47, nor 45. *)
Definition ex_call : list event := [ECall 1000 0 2 7; EReturn 0; EReturn 0; EReturn 0; EReturn 99; EReturn 0; EReturn 0].
Fixpoint ex_seen (t : list obs) : list Z :=
  match t with
  | [] => []
  | OHandler _ _ hd _ _ :: t' => ex_seen t' ++ [hd]
  | OOrig _ (COrig c) _ _ :: t' => ex_seen t' ++ [c]
  | _ :: t' => ex_seen t'
  end.
Fixpoint ex_first (t : list obs) : nat := match t with OBegin F _ _ _ KNormal :: _ => F | _ :: t' => ex_first t' | [] => 0 end.
Definition ex_F : nat := Eval vm_compute in ex_first (h_tr (s_h (ex_at (ex_setup ++ [ECall 1000 0 2 7])))).
Definition hook_eqb (a b : hook) : bool :=
  (hk_nid a =? hk_nid b) && Z.eqb (hk_id a) (hk_id b) && Z.eqb (hk_plug a) (hk_plug b) && Z.eqb (hk_offs a) (hk_offs b) &&
  Z.eqb (hk_handler a) (hk_handler b) && Bool.eqb (hk_paused a) (hk_paused b).
Lemma hook_eqb_ok : forall a b, hook_eqb a b = true -> a = b.
Proof.
  intros [a1 a2 a3 a4 a5 a6] [b1 b2 b3 b4 b5 b6] H. unfold hook_eqb in H. cbn in H. repeat (apply andb_prop in H; destruct H as [H ?]).
  f_equal; auto using Nat.eqb_eq; try (now apply Z.eqb_eq); try (now apply Nat.eqb_eq); now apply eqb_prop.
Qed.
Fixpoint hooks_eqb (l m : list hook) : bool :=
  match l, m with [], [] => true | a :: l', b :: m' => hook_eqb a b && hooks_eqb l' m' | _, _ => false end.
Lemma hooks_eqb_ok : forall l m, hooks_eqb l m = true -> l = m.
Proof.
  induction l as [|a l IH]; intros [|b m] H; cbn in H; try discriminate; [reflexivity|]. apply andb_prop in H. destruct H as [H1 H2].
  f_equal; [now apply hook_eqb_ok|auto].
Qed.
Definition same_hooksb (h h' : hs) (slot this : Z) : bool :=
  forallb (fun adj => forallb (fun post => hooks_eqb (installed h' slot adj post) (installed h slot adj post)) [false; true]) [this; 0%Z].
Lemma same_hooksb_ok : forall h h' slot this, same_hooksb h h' slot this = true -> same_hooks h h' slot this.
Proof.
  intros h h' slot this H adj post D. unfold same_hooksb in H. rewrite forallb_forall in H.
  assert (I : In adj [this; 0%Z]) by (destruct D as [->| ->]; [now left|right; now left]). specialize (H adj I). rewrite forallb_forall in H.
  apply hooks_eqb_ok, H. destruct post; [right; now left|now left].
Qed.
Example C04_ex :
  let l0 := ex_setup in let l1 := l0 ++ [ECall 1000 0 2 7] in let l2 := l0 ++ ex_call in
  play ex_mem l0 (ex_at l0) (ex_fr l0) /\ tracks (ex_at l0) (ex_fr l0) [ECall 1000 0 2 7] (ex_at l1) (ex_fr l1) /\
  In (OBegin ex_F ex_slot 1000 7 KNormal) (h_tr (s_h (ex_at l1))) /\ ~ In (OBegin ex_F ex_slot 1000 7 KNormal) (h_tr (s_h (ex_at l0))) /\
  during (fun q => same_hooks (s_h (ex_at l1)) (s_h q) ex_slot 1000) (ex_at l1) (ex_fr l1) (tl ex_call) (ex_at l2) (ex_fr l2) /\
  vw_rec (see (h_tr (s_h (ex_at l2))) ex_F) = false /\ over (h_tr (s_h (ex_at l2))) ex_F /\
  ex_seen (h_tr (s_h (ex_at l2))) = [41; 43; 42; 10032; 44; 46]%Z.
Proof.
  cbn zeta. split; [apply ex_plays; vm_compute; reflexivity|]. split; [apply ex_tracks; vm_compute; reflexivity|].
  split; [vm_compute; tauto|]. split; [vm_compute; intuition discriminate|].
  split; [change (ex_setup ++ ex_call) with ((ex_setup ++ [ECall 1000 0 2 7]) ++ tl ex_call); apply (ex_during _ (fun q => same_hooksb (s_h (ex_at (ex_setup ++ [ECall 1000 0 2 7]))) (s_h q) ex_slot 1000)); [intros q; apply same_hooksb_ok|vm_compute; reflexivity|vm_compute; reflexivity]|].
  split; [vm_compute; reflexivity|]. split; [eexists; vm_compute; left; reflexivity|vm_compute; reflexivity].
Qed.

(** ** C05 The original function *)
(** Called at most once, never when a pre handler superceded, and when the call
    is over: exactly once if none did.  A call that a handler has recalled
    ([vw_rec]) counts as superceded by that handler; the recalled call carries on
    where it stopped and keeps counting. *)
Theorem C05_count : forall mem l s A F slot this p k, play mem l s A -> In (OBegin F slot this p k) (h_tr (s_h s)) ->
  let v := see (h_tr (s_h s)) F in
  vw_norig v <= 1 /\ (vw_norig v = 1 -> superceded (vw_res1 v) = false) /\
  (over (h_tr (s_h s)) F -> vw_norig v = if superceded (vw_res1 v) then 0 else 1).
Proof.
  intros mem l s A F slot this p k Pl B v. pose proof (all_facts _ _ (play_ok _ _ _ _ Pl) F) as Fa. fold v in Fa.
  split; [apply (fa_one _ Fa)|]. split; [apply (fa_orig _ Fa)|]. intros (z & O). apply (fa_post _ Fa).
  apply in_split in O. destruct O as (t2 & t1 & E). destruct (play_rules _ _ _ _ _ _ _ Pl E) as (l1 & e & l2 & q & C & _ & _ & O & _).
  destruct (play_params _ _ _ _ _ _ _ F Pl E eq_refl) as (sl & th & pp & kk & _ & NI & _).
  unfold v. rewrite E. change (t2 ++ OEnd F z :: t1) with (t2 ++ [OEnd F z] ++ t1). apply post_mono; [exact NI|]. exact O.
Qed.
Print Assumptions C05_count.

(** Whenever it is called: it is the function that was in the vtable slot before
    the first hook, gets the object and the arguments of the call, no pre
    handler has superceded, no post handler has run, and no pre handler will. *)
Theorem C05_call : forall mem l s A t2 F c th q t1, play mem l s A -> h_tr (s_h s) = t2 ++ OOrig F c th q :: t1 ->
  exists slot k, In (OBegin F slot th q k) t1 /\ c = COrig (mem slot) /\
  let v := see t1 F in
  vw_norig v = 0 /\ superceded (vw_res1 v) = false /\ vw_rec v = false /\ vw_pst v = [] /\
  vw_pre (see (h_tr (s_h s)) F) = vw_pre v.
Proof.
  intros mem l s A t2 F c th q t1 Pl E.
  destruct (play_rules _ _ _ _ _ _ _ Pl E) as (l1 & e & l2 & s1 & C & _ & _ & (O1 & O2 & O3 & O4 & O5 & O6 & O7)).
  destruct (play_params _ _ _ _ _ _ _ F Pl E eq_refl) as (sl & this & pp & kk & B & NI & V1 & V2 & V3 & _).
  pose proof (play_ok _ _ _ _ Pl) as Ok. rewrite E in Ok.
  assert (Fa : facts (see t1 F)) by (apply (all_facts mem); eapply (all_ok_app mem (t2 ++ [OOrig F c th q])); rewrite <- app_assoc; exact Ok).
  exists sl, kk. rewrite O6, O7, V2, V3, O5, V1. split; [exact B|]. split; [reflexivity|]. cbn zeta. repeat (split; [assumption|]).
  split; [apply (fa_no _ Fa O1)|]. rewrite E. rewrite (pre_fixed mem); [|exact Ok|exact NI|].
  - cbn [see]. rewrite Nat.eqb_refl. reflexivity.
  - cbn [see]. rewrite Nat.eqb_refl. cbn. lia.
Qed.
Print Assumptions C05_call.

(** Example: a handler supercedes; another one only overrides. *)
Definition ex_super : list event := ex_setup ++ [ECall 1000 0 2 7; EReturn 0; ESetRes MSupercede; EReturn 55; ESetRes MOverride; EReturn 66; EReturn 0; EReturn 0].
Definition ex_over : list event := ex_setup ++ [ECall 1000 0 2 7; ESetRes MOverride; EReturn 55; EReturn 0; EReturn 0; EReturn 99; EReturn 0; EReturn 0].
Example C05_ex :
  play ex_mem ex_super (ex_at ex_super) (ex_fr ex_super) /\ over (h_tr (s_h (ex_at ex_super))) ex_F /\
  ex_seen (h_tr (s_h (ex_at ex_super))) = [41; 43; 42; 44; 46]%Z /\ vw_norig (see (h_tr (s_h (ex_at ex_super))) ex_F) = 0 /\
  play ex_mem ex_over (ex_at ex_over) (ex_fr ex_over) /\ vw_norig (see (h_tr (s_h (ex_at ex_over))) ex_F) = 1.
Proof.
  split; [apply ex_plays; vm_compute; reflexivity|]. split; [eexists; vm_compute; left; reflexivity|]. split; [vm_compute; reflexivity|].
  split; [vm_compute; reflexivity|]. split; [apply ex_plays; vm_compute; reflexivity|vm_compute; reflexivity].
Qed.

(** ** C06 The value the caller gets *)
(** [last_override]: the value given by the last handler (pre or post) that
    returned OVERRIDE or SUPERCEDE; [vw_orig]: the value the original function
    returned. *)
Theorem C06_value : forall mem l s A t2 F z t1, play mem l s A -> h_tr (s_h s) = t2 ++ OEnd F z :: t1 ->
  match last_override (vw_res (see t1 F)) with
  | Some x => z = x
  | None => vw_orig (see t1 F) = Some z
  end.
Proof. intros mem l s A t2 F z t1 Pl E. destruct (play_rules _ _ _ _ _ _ _ Pl E) as (l1 & e & l2 & s1 & C & _ & _ & _ & O). exact O. Qed.
Print Assumptions C06_value.
Fixpoint ex_value (t : list obs) (F : nat) : option Z :=
  match t with [] => None | OEnd G z :: t' => if G =? F then Some z else ex_value t' F | _ :: t' => ex_value t' F end.
Example C06_ex : ex_value (h_tr (s_h (ex_at ex_super))) ex_F = Some 66%Z /\ ex_value (h_tr (s_h (ex_at ex_over))) ex_F = Some 55%Z /\
  ex_value (h_tr (s_h (ex_at (ex_setup ++ ex_call)))) ex_F = Some 99%Z.
Proof. repeat apply conj; vm_compute; reflexivity. Qed.

(** ** C07 What handlers see of the other handlers *)
(** META_RESULT_STATUS: the highest result returned by handlers of this call so
    far; META_RESULT_PREVIOUS: the last result in this loop ([C07_previous]);
    META_RESULT_OVERRIDE_RET: the value of the last overriding handler, or NULL;
    META_RESULT_ORIG_RET in post handlers while nobody has overridden: the value
    the original function returned.  Other calls, nested or not, do not matter. *)
Theorem C07_queries : forall mem l s A F n, play mem l s A -> in_handler s = Some (F, n) ->
  let v := see (h_tr (s_h s)) F in
  hd_error (vw_ran v) = Some n /\
  q_status s = Some (max_res (vw_res v)) /\ q_prev s = Some (vw_prev v) /\ q_override_ret s = Some (last_override (vw_res v)) /\
  (vw_post v = true -> last_override (vw_res v) = None -> q_orig_ret s = vw_orig v).
Proof.
  intros mem l s A F n Pl Hh v. destruct (play_inv _ _ _ _ Pl) as [L _]. pose proof (li_c _ _ _ L) as C. pose proof (ci_rel _ _ _ C) as R. pose proof (ci_cs _ _ _ C) as Cs.
  pose proof (stk_front _ Cs) as Fr. pose proof (li_st _ _ _ L) as St.
  unfold in_handler in Hh. inversion R as [Q1 Q2 Q3|fid aft fr cs A0 R0 Hr Q1 Q2 Q3|fid fr c cs A0 R0 Hs Ho Hv Q1 Q2 Q3|susp fid aft hi fr c cs a A0 R0 Fo Q1 Q2 Q3]; subst A; rewrite <- Q2 in Hh; cbn [f_hook f_id] in Hh; try discriminate.
  rewrite <- Q3 in Fr. cbn [hd_error] in Fr. destruct Fo as [F1 F2 F3 F4 F5 F6 F7 F8 F9 F10 F11]. rewrite F3 in Hh.
  destruct (a_run a) as [[vp m]|] eqn:Er; [|discriminate]. cbn [option_map snd] in Hh. injection Hh as <- <-.
  cbn [stack_ok af_hook af_id] in St. destruct St as [[[B Ph] _] _].
  destruct F7 as [K1 K2 K3 K4 K5 (w & K6 & K7 & K8 & K9) K10]. destruct K5 as [K5 K5']; [right; congruence|].
  assert (Gv : front_vars s = Some w) by (unfold front_vars; rewrite Fr, K5; exact K6).
  pose proof (b_status _ _ _ _ _ B) as Bs. pose proof (b_prev _ _ _ _ _ B) as Bp. pose proof (b_over _ _ _ _ _ B eq_refl) as Bo. pose proof (b_orig _ _ _ _ _ B) as Bg. fold v in Bs, Bp, Bo, Bg.
  destruct (F11 eq_refl) as [Ov Or]. unfold ov_ok in Ov. unfold or_ok in Or. rewrite Bs, max_res_over in Ov, Or.
  split; [|split; [|split; [|split]]].
  - unfold phase_ok in Ph. rewrite Er in Ph. destruct (a_phase a); [destruct Ph as (_ & Cu & _)|destruct Ph as (Ph & _); discriminate|destruct Ph as (_ & Cu & _)]; exact (c_hd _ _ _ _ _ _ Cu _ _ eq_refl).
  - unfold q_status. rewrite Gv. congruence.
  - unfold q_prev. rewrite Gv. congruence.
  - unfold q_override_ret, q_status. rewrite Fr, Gv. rewrite K7, Bs, max_res_over.
    destruct (last_override (vw_res v)) as [z|] eqn:El; [|reflexivity].
    change (read_ret (s_b s) (cx_over c)) with (read_ret (s_b s) (cx_over c)). specialize (Ov eq_refl). specialize (Bo z eq_refl).
    assert (Rr : read_ret (s_b s) (cx_over c) = rd (b_vars (s_b s)) (cx_over c)).
    { unfold read_ret, rd, lk, get_vars. destruct (cx_over c) as [[g o]|]; [|reflexivity]. destruct (find _ _); reflexivity. }
    rewrite Rr, Ov, Bo. reflexivity.
  - intros Hp Hl. unfold q_orig_ret. rewrite Fr.
    assert (Rr : read_ret (s_b s) (cx_orig c) = rd (b_vars (s_b s)) (cx_orig c)).
    { unfold read_ret, rd, lk, get_vars. destruct (cx_orig c) as [[g o]|]; [|reflexivity]. destruct (find _ _); reflexivity. }
    assert (Pp : a_phase a = PPost).
    { unfold phase_ok in Ph. destruct (a_phase a) eqn:Ep; [destruct Ph as (_ & Cu & _); pose proof (c_post _ _ _ _ _ _ Cu) as X; fold v in X; congruence|destruct Ph as (Ph & _); congruence|reflexivity]. }
    rewrite Rr. rewrite (Or Pp) by (now rewrite Hl).
    pose proof (all_facts _ _ (play_ok _ _ _ _ Pl) fid) as Fa. fold v in Fa.
    assert (N1 : vw_norig v = 1).
    { rewrite (fa_post _ Fa Hp). destruct (superceded (vw_res1 v)) eqn:Es; [|reflexivity]. exfalso.
      assert (superceded (vw_res v) = true) by (unfold vw_res; rewrite sup_app, Es; apply orb_true_r).
      rewrite <- max_res_sup in H. pose proof (ge_sup_over (max_res (vw_res v))) as X. rewrite max_res_over, Hl, H in X. specialize (X eq_refl). discriminate. }
    pose proof (fa_known _ Fa Hp N1) as Kn. destruct (vw_orig v) as [z|] eqn:Eo; [|contradiction]. now rewrite (Bg z eq_refl).
Qed.
Print Assumptions C07_queries.

Theorem C07_previous : forall mem l s A F slot this p, play mem l s A -> In (OBegin F slot this p KNormal) (h_tr (s_h s)) ->
  let v := see (h_tr (s_h s)) F in vw_rec v = false ->
  vw_prev v = match (if vw_post v then vw_res2 v else vw_res1 v) with (r, _) :: _ => r | [] => MIgnored end.
Proof.
  intros mem l s A F slot this p Pl B v Hr. destruct (play_inv _ _ _ _ Pl) as [L _].
  exact (prev_last _ _ _ _ _ _ KNormal (fun G => ltac:(discriminate)) (play_ok _ _ _ _ Pl) (li_beg _ _ _ L) B Hr).
Qed.
Print Assumptions C07_previous.

(** Example: the third handler (42) runs; the first superceded, the second one
    called the hooked function again (a nested call, whose handlers' results do
    not matter) and returned HANDLED. *)
Definition ex_nested : list event :=
  ex_setup ++ [ECall 1000 0 2 7; ESetRes MSupercede; EReturn 55; ESetRes MHandled] ++
  [ECall 1000 0 2 8; ESetRes MOverride; EReturn 1; EReturn 0; EReturn 0; EReturn 3; EReturn 0; EReturn 0] ++ [EReturn 0].
Example C07_ex :
  play ex_mem ex_nested (ex_at ex_nested) (ex_fr ex_nested) /\ option_map fst (in_handler (ex_at ex_nested)) = Some ex_F /\
  vw_res (see (h_tr (s_h (ex_at ex_nested))) ex_F) = [(MHandled, 0%Z); (MSupercede, 55%Z)] /\
  q_status (ex_at ex_nested) = Some MSupercede /\ q_prev (ex_at ex_nested) = Some MHandled /\ q_override_ret (ex_at ex_nested) = Some (Some 55%Z).
Proof. split; [apply ex_plays; vm_compute; reflexivity|]. repeat apply conj; vm_compute; reflexivity. Qed.

(** ** C10 Removing and pausing hooks from inside handlers *)
(** A hook for the function and object being called (or for the vtable) that
    stays installed and unpaused from the beginning of the call until the call is
    over has been run, by the call itself or by a recall of it.  [was_run]; it has
    been run once: C04_handlers, C13_not_rerun. *)
Theorem C10_live_run : forall mem l s A e s1 A1 l' s' A' F slot this p post adj n, play mem l s A -> starts s A e s1 A1 F slot this p KNormal ->
  adj = this \/ adj = 0%Z -> during (fun q => live (s_h q) slot adj post n) s1 A1 l' s' A' ->
  over (h_tr (s_h s')) F -> was_run (h_tr (s_h s')) F n.
Proof.
  intros mem l s A e s1 A1 l' s' A' F slot this p post adj n Pl St Ha D O.
  assert (exists vp : bool, adj = if vp then 0%Z else this) as (vp & ->) by (destruct Ha as [->| ->]; [now exists false|now exists true]).
  pose proof (starts_waits _ _ _ _ _ _ _ _ _ _ _ post vp n Pl St (during_start _ _ _ _ _ _ D)) as W.
  eapply waits_over; [eapply play_more; [exact Pl|apply St]|exact D|exact W|exact O].
Qed.
Print Assumptions C10_live_run.

(** Whatever is added, removed or paused: when a handler is called, all handlers
    that ran before it in this loop and are still installed come before it: the
    object's before the vtable's, and within a list in the order of the list. *)
Theorem C10_order : forall mem l s A t2 F n hd ip q t1, play mem l s A -> h_tr (s_h s) = t2 ++ OHandler F n hd ip q :: t1 ->
  let v := see t1 F in
  exists l1 e l2 s1 A1, l = l1 ++ e :: l2 /\ play mem l1 s1 A1 /\
  exists k, hk_nid k = n /\ hk_paused k = false /\
    ((In k (installed (s_h s1) (vw_slot v) (vw_this v) (vw_post v)) /\
      (forall k', In k' (installed (s_h s1) (vw_slot v) 0 (vw_post v)) -> ~ In (hk_nid k') (vw_ran v)) /\
      (forall k', In k' (installed (s_h s1) (vw_slot v) (vw_this v) (vw_post v)) -> In (hk_nid k') (vw_ran v) -> hk_nid k' < n)) \/
     (In k (installed (s_h s1) (vw_slot v) 0 (vw_post v)) /\
      (forall k', In k' (installed (s_h s1) (vw_slot v) 0 (vw_post v)) -> In (hk_nid k') (vw_ran v) -> hk_nid k' < n))).
Proof.
  intros mem l s A t2 F n hd ip q t1 Pl E v.
  destruct (play_rules _ _ _ _ _ _ _ Pl E) as (l1 & e & l2 & s1 & A1 & El & Pl1 & (O1 & O2 & O3 & O4 & O5 & vp & kk & O6 & O7 & O8 & O9 & O10 & O11 & O12)).
  exists l1, e, l2, s1, A1. split; [exact El|]. split; [exact Pl1|]. exists kk. split; [exact O7|]. split; [exact O9|]. fold v in O6, O11, O12. destruct vp.
  - right. split; [exact O6|]. intros k' I1 I2. now apply O12.
  - left. split; [exact O6|]. split; [intros k' I1 I2; now destruct (O12 k' I1 I2)|]. intros k' I1 I2. destruct (O11 k' I1 I2); [discriminate|assumption].
Qed.
Print Assumptions C10_order.

(** Example: the first handler removes itself and the next one and pauses the
    vtable's; only the post handlers are left. *)
Definition ex_remove : list event :=
  ex_setup ++ [ECall 1000 0 2 7; ERemoveById 1; ERemoveById 3; EPause 2 true; EReturn 0; EReturn 99; EReturn 0; EReturn 0].
Definition liveb (h : hs) (slot adj : Z) (post : bool) (n : nat) : bool := existsb (fun k => (hk_nid k =? n) && negb (hk_paused k)) (installed h slot adj post).
Lemma liveb_ok : forall h slot adj post n, liveb h slot adj post n = true -> live h slot adj post n.
Proof.
  intros h slot adj post n H. unfold liveb in H. apply existsb_exists in H. destruct H as (k & I & H). apply andb_prop in H. destruct H as [H1 H2].
  exists k. split; [exact I|]. split; [now apply Nat.eqb_eq|now apply negb_true_iff].
Qed.
Definition ex_nid (hd : Z) : nat := (* the hook with handler hd *)
  match find (fun k => Z.eqb (hk_handler k) hd)
          (flat_map (fun a => installed (s_h (ex_at ex_setup)) ex_slot a false ++ installed (s_h (ex_at ex_setup)) ex_slot a true) [0; 1000; 1200]%Z) with
  | Some k => hk_nid k | None => 0 end.
Example C10_ex :
  let l1 := ex_setup ++ [ECall 1000 0 2 7] in
  play ex_mem ex_remove (ex_at ex_remove) (ex_fr ex_remove) /\ starts (ex_at ex_setup) (ex_fr ex_setup) (ECall 1000 0 2 7) (ex_at l1) (ex_fr l1) ex_F ex_slot 1000 7 KNormal /\
  during (fun q => live (s_h q) ex_slot 1000 true (ex_nid 44)) (ex_at l1) (ex_fr l1) (skipn 9 ex_remove) (ex_at ex_remove) (ex_fr ex_remove) /\
  over (h_tr (s_h (ex_at ex_remove))) ex_F /\ ex_seen (h_tr (s_h (ex_at ex_remove))) = [41; 10032; 44; 46]%Z.
Proof.
  cbn zeta. split; [apply ex_plays; vm_compute; reflexivity|].
  split; [split; [apply ex_tracks; vm_compute; reflexivity|split; [vm_compute; tauto|vm_compute; intuition discriminate]]|].
  split; [change ex_remove with ((ex_setup ++ [ECall 1000 0 2 7]) ++ skipn 9 ex_remove) at 2 3; apply (ex_during _ (fun q => liveb (s_h q) ex_slot 1000 true (ex_nid 44))); [intros q; apply liveb_ok|vm_compute; reflexivity|vm_compute; reflexivity]|].
  split; [eexists; vm_compute; left; reflexivity|vm_compute; reflexivity].
Qed.

(** ** C11 The last hook goes away during a call *)
Theorem C11_last_hook : forall mem l s A l' s' A' F slot this p k, play mem l s A -> In (OBegin F slot this p k) (h_tr (s_h s)) ->
  ~ hooked (s_h s) slot -> tracks s A l' s' A' ->
  exists new, h_tr (s_h s') = new ++ h_tr (s_h s) /\
    (forall n hd ip q, ~ In (OHandler F n hd ip q) new) /\
    (forall c th q, In (OOrig F c th q) new -> c = COrig (mem slot) /\ th = this /\ q = p) /\
    let v := see (h_tr (s_h s')) F in
    vw_norig v <= 1 /\ (over (h_tr (s_h s')) F -> vw_norig v = if superceded (vw_res1 v) then 0 else 1).
Proof.
  intros mem l s A l' s' A' F slot this p k Pl B Nh T. destruct (play_inv _ _ _ _ Pl) as [L S]. pose proof (proj1 Pl) as Ev.
  assert (Pl' := play_more _ _ _ _ _ _ _ Pl T). destruct (play_inv _ _ _ _ Pl') as [L' _].
  assert (Lt : F < h_nxt (s_h s)) by (eapply (li_fid _ _ _ L); [exact B|reflexivity]).
  assert (Da : ~ alive_in F A).
  { intros (f & a & If & Ef & Eh & Ea). apply Nh.
    destruct (frame_of _ _ _ F L S) as (N & f' & B' & a' & su & EA & Ef' & Eh' & [Fb _]); [rewrite <- Ef; now apply in_map|now apply in_begins in B|].
    assert (Nd : NoDup (map af_id A)) by (rewrite (cinv_ids _ _ _ (li_c _ _ _ L)); apply (ci_nd _ _ _ (li_c _ _ _ L))).
    assert (f = f').
    { assert (If' : In f' A) by (rewrite EA; apply in_app_iff; right; now left). clear - Nd If If' Ef Ef'. induction A as [|g A IH]; [contradiction|]. cbn [map] in Nd. apply NoDup_cons_iff in Nd.
      destruct If as [->|If], If' as [->|If']; auto; [exfalso; apply (proj1 Nd); rewrite Ef, <- Ef'; now apply in_map|exfalso; apply (proj1 Nd); rewrite Ef', <- Ef; now apply in_map|]. exact (IH If (proj2 Nd) If'). }
    subst f'. assert (a' = a) by congruence. subst a'.
    pose proof (rel_alive _ _ _ _ _ _ _ _ (ci_rel _ _ _ (li_c _ _ _ L)) If Eh Ea) as Hk.
    rewrite <- (b_slot _ _ _ _ _ Fb) in Hk. destruct (see_params _ _ _ _ _ _ B (li_beg _ _ _ L)) as (V1 & _). rewrite V1 in Hk.
    apply (hooked_at _ _ (wf_n _ _ (g_wf _ _ (ci_good _ _ _ (li_c _ _ _ L))))) in Hk. destruct Hk as (x & y & z & Hk). exists x, y, z. now apply in_installed. }
  destruct (dead_run _ _ _ _ _ _ _ Ev T L Lt Da) as (_ & new & En & Hn). exists new. split; [exact En|].
  split; [intros n hd ip q I; apply (Hn _ I); reflexivity|].
  assert (B' : In (OBegin F slot this p k) (h_tr (s_h s'))) by (rewrite En; apply in_app_iff; now right).
  split.
  - intros c th q I. apply in_split in I. destruct I as (t2 & t1 & E1). assert (E2 : h_tr (s_h s') = t2 ++ OOrig F c th q :: (t1 ++ h_tr (s_h s))) by (rewrite En, E1, <- app_assoc; reflexivity).
    destruct (C05_call _ _ _ _ _ _ _ _ _ _ Pl' E2) as (sl & k' & I1 & I2 & _).
    assert (I3 : In (OBegin F sl th q k') (h_tr (s_h s'))) by (rewrite E2; apply in_app_iff; right; right; exact I1).
    destruct (see_params _ _ _ _ _ _ I3 (li_beg _ _ _ L')) as (W1 & W2 & W3 & _). destruct (see_params _ _ _ _ _ _ B' (li_beg _ _ _ L')) as (V1 & V2 & V3 & _).
    split; [congruence|]. split; congruence.
  - destruct (C05_count _ _ _ _ _ _ _ _ _ Pl' B') as (K1 & _ & K2). split; [exact K1|exact K2].
Qed.
Print Assumptions C11_last_hook.
(** Example: the first handler removes all hooks; then the original function runs. *)
Definition ex_last : list event :=
  ex_setup ++ [ECall 1000 0 2 7; ERemoveById 1; ERemoveById 2; ERemoveById 3; ERemoveById 4; ERemoveById 5; ERemoveById 6; ERemoveById 7].
Example C11_ex :
  let l' := [EReturn 0; EAddHook 1 ANormal 1000 0 100 48 true; EReturn 99] in
  play ex_mem ex_last (ex_at ex_last) (ex_fr ex_last) /\ In (OBegin ex_F ex_slot 1000 7 KNormal) (h_tr (s_h (ex_at ex_last))) /\
  ~ hooked (s_h (ex_at ex_last)) ex_slot /\ tracks (ex_at ex_last) (ex_fr ex_last) l' (ex_at (ex_last ++ l')) (ex_fr (ex_last ++ l')) /\
  over (h_tr (s_h (ex_at (ex_last ++ l')))) ex_F /\ ex_seen (h_tr (s_h (ex_at (ex_last ++ l')))) = [41; 10032]%Z.
Proof.
  cbn zeta. split; [apply ex_plays; vm_compute; reflexivity|]. split; [vm_compute; tauto|].
  split; [intros (a & p & k & I); vm_compute in I; exact I|]. split; [apply ex_tracks; vm_compute; reflexivity|].
  split; [eexists; vm_compute; tauto|vm_compute; reflexivity].
Qed.

(** ** C12 Adding hooks from inside handlers *)
(** While the call [F] is in the handler [n0], somebody adds the hook [k] to the
    list [n0] is in (the object's or the vtable's list of the same phase), where
    it comes last (C01_add).  If [k] stays installed and unpaused, it has been run
    when the call is over.  (No handler is run twice: C04_handlers.) *)
Theorem C12_added : forall mem l s A plug mode ifp offs pf handler post s1 A1 l' s' A' F n0 adj k0 k,
  play mem l s A -> tracks s A [EAddHook plug mode ifp offs pf handler post] s1 A1 ->
  In F (flat_map begins (h_tr (s_h s))) -> ~ over (h_tr (s_h s)) F ->
  let v := see (h_tr (s_h s)) F in
  vw_rec v = false -> in_loop v -> hd_error (vw_ran v) = Some n0 ->
  In k0 (installed (s_h s1) (vw_slot v) adj (vw_post v)) -> hk_nid k0 = n0 ->
  In k (installed (s_h s1) (vw_slot v) adj (vw_post v)) -> (forall x y z, ~ In k (installed (s_h s) x y z)) ->
  during (fun q => live (s_h q) (vw_slot v) adj (vw_post v) (hk_nid k)) s1 A1 l' s' A' ->
  over (h_tr (s_h s')) F -> was_run (h_tr (s_h s')) F (hk_nid k).
Proof.
  intros mem l s A plug mode ifp offs pf handler post s1 A1 l' s' A' F n0 adj k0 k Pl T B NO v Hr Hl Hd I0 E0 I1 NI D O.
  destruct (play_inv _ _ _ _ Pl) as [L S]. pose proof (proj1 Pl) as Ev. assert (Pl1 := play_more _ _ _ _ _ _ _ Pl T). destruct (play_inv _ _ _ _ Pl1) as [L1 S1].
  destruct (tracks_one _ _ _ _ _ T) as (Al & E & x & Ea & ->).
  destruct (step_loop mem s A _ s1 Ev L Al E) as (x' & new & Ea' & _ & Sn & _ & _ & Hnn & _). assert (x' = x) by congruence. subst x'. unfold since in Sn. specialize (Hnn eq_refl).
  assert (Es : see (h_tr (s_h s1)) F = v).
  { rewrite Sn. apply see_silent. eapply Forall_impl; [|exact Hnn]. intros o Ho. now apply api_silent in Ho. }
  assert (InF : In F (map af_id A)).
  { destruct (in_dec Nat.eq_dec F (map af_id A)) as [|NF]; [assumption|]. exfalso. apply NO. now apply (play_over _ _ _ _ F Pl B). }
  assert (InF1 : In F (map af_id (as_fr x))).
  { cbn [astep] in Ea. injection Ea as <-. cbn [as_fr]. rewrite map_map. cbn [refresh af_id]. exact InF. }
  assert (B1 : In F (flat_map begins (h_tr (s_h s1)))) by (rewrite Sn, flat_map_app; apply in_app_iff; now right).
  assert (Lt : n0 < hk_nid k).
  { destruct (frame_of _ _ _ F L S InF B) as (N & f & B' & a & su & EA & Ef & Eh & [Fb Fp]).
    assert (L0 : n0 < h_nxt (s_h s)).
    { assert (In n0 (vw_ran v)) by (destruct (vw_ran v); [discriminate|injection Hd as ->; now left]).
      unfold phase_ok in Fp. destruct (a_phase a).
      - destruct Fp as (_ & Cu & _). exact (c_lt _ _ _ _ _ _ Cu _ H).
      - exfalso. destruct Fp as (_ & P1 & P2 & _). fold v in P1, P2. destruct Hl; [congruence|lia].
      - destruct Fp as (_ & Cu & _). exact (c_lt _ _ _ _ _ _ Cu _ H). }
    destruct (step_change mem s _ s1 (ci_good _ _ _ (li_c _ _ _ L)) E) as (nw & Sn' & Ch).
    destruct (add_hook_cases mem s plug mode ifp offs pf handler post (ci_good _ _ _ (li_c _ _ _ L))) as [[_ Eq]|[(_ & _ & _ & Eq)|(info & h' & hk & Ef' & Eq & _ & _ & _ & _ & Ad & _)]];
      cbn [step] in E; rewrite Eq in E; try discriminate; injection E as <-.
    - exfalso. exact (NI _ _ _ I1).
    - apply in_installed in I1. apply (ad_hooks _ _ _ _ _ _ Ad) in I1. destruct I1 as [I1|(_ & _ & _ & ->)]; [exfalso; eapply NI; apply in_installed; exact I1|].
      pose proof (ad_fresh _ _ _ _ _ _ Ad). fold (s_h s) in *. lia. }
  destruct (running_ahead mem s1 (as_fr x) F n0 (hk_nid k) adj k0 L1 S1 InF1 B1) as (vp & Eadj & W); rewrite ?Es; auto.
  rewrite Es in W. rewrite Eadj, Es in D. eapply waits_over; [exact Pl1|exact D|left; exact W|exact O].
Qed.
Print Assumptions C12_added.
(** Example: handler 41 adds another pre hook for the object: it is run after 43. *)
Definition ex_add : list event := ex_setup ++ [ECall 1000 0 2 7].
Definition ex_added : event := EAddHook 1 ANormal 1000 0 100 48 false.
Definition ex_new : hook := match rev (installed (s_h (ex_at (ex_add ++ [ex_added]))) ex_slot 1000 false) with k :: _ => k | [] => Hook 0 0 0 0 0 false end.
Example C12_ex :
  let l1 := ex_add ++ [ex_added] in let l' := [EReturn 0; EReturn 0; EReturn 0; EReturn 0; EReturn 99; EReturn 0; EReturn 0] in
  let v := see (h_tr (s_h (ex_at ex_add))) ex_F in
  play ex_mem ex_add (ex_at ex_add) (ex_fr ex_add) /\ tracks (ex_at ex_add) (ex_fr ex_add) [ex_added] (ex_at l1) (ex_fr l1) /\
  In ex_F (flat_map begins (h_tr (s_h (ex_at ex_add)))) /\ ~ over (h_tr (s_h (ex_at ex_add))) ex_F /\
  vw_rec v = false /\ in_loop v /\ hd_error (vw_ran v) = Some (ex_nid 41) /\
  In ex_new (installed (s_h (ex_at l1)) (vw_slot v) 1000 (vw_post v)) /\ hk_handler ex_new = 48%Z /\
  during (fun q => live (s_h q) (vw_slot v) 1000 (vw_post v) (hk_nid ex_new)) (ex_at l1) (ex_fr l1) l' (ex_at (l1 ++ l')) (ex_fr (l1 ++ l')) /\
  over (h_tr (s_h (ex_at (l1 ++ l')))) ex_F /\ ex_seen (h_tr (s_h (ex_at (l1 ++ l')))) = [41; 43; 48; 42; 10032; 44; 46]%Z.
Proof.
  cbn zeta. split; [apply ex_plays; vm_compute; reflexivity|]. split; [apply ex_tracks; vm_compute; reflexivity|]. split; [vm_compute; tauto|].
  split; [intros (z & I); vm_compute in I; intuition discriminate|]. split; [vm_compute; reflexivity|]. split; [right; vm_compute; reflexivity|].
  split; [vm_compute; reflexivity|]. split; [vm_compute; tauto|]. split; [vm_compute; reflexivity|].
  split; [apply (ex_during _ (fun q => liveb (s_h q) (vw_slot (see (h_tr (s_h (ex_at ex_add))) ex_F)) 1000 (vw_post (see (h_tr (s_h (ex_at ex_add))) ex_F)) (hk_nid ex_new))); [intros q; apply liveb_ok|vm_compute; reflexivity|vm_compute; reflexivity]|].
  split; [eexists; vm_compute; left; reflexivity|vm_compute; reflexivity].
Qed.

(** ** C13 Recalls *)
Lemma tracks_split : forall l s A l' s' A', tracks s A (l ++ l') s' A' -> exists s1 A1, tracks s A l s1 A1 /\ tracks s1 A1 l' s' A'.
Proof.
  induction l as [|e l IH]; intros s A l' s' A' T; cbn [app] in T; [exists s, A; split; [constructor|exact T]|].
  inversion T as [|? ? ? ? x ? ? ? Al E Ea T']; subst. destruct (IH _ _ _ _ _ T') as (s2 & A2 & T1 & T2). exists s2, A2. split; [econstructor; eauto|exact T2].
Qed.
(** The call [G] is a recall by the handler [n] of the call [F], which gave the
    result [r], [z].  It concerns the same function and object, with the new
    argument [p] (which its handlers and the original function get:
    C04_handlers, C05_call), and continues where [F] was: the handlers that ran
    in [F], the results they gave and what the original function did count as
    those of [G] (C05_count, C06_value and C07_queries therefore speak of all
    of them). *)
Theorem C13_continues : forall mem l s A t2 G slot this p F t1, play mem l s A -> h_tr (s_h s) = t2 ++ OBegin G slot this p (KRecall F) :: t1 ->
  exists n r z t0, t1 = ORecall F n r z :: t0 /\
  let v := see t0 F in let g := see (OBegin G slot this p (KRecall F) :: t1) G in
  vw_rec v = false /\ hd_error (vw_ran v) = Some n /\ slot = vw_slot v /\ this = vw_this v /\
  vw_slot g = slot /\ vw_this g = this /\ vw_param g = p /\ vw_post g = vw_post v /\ vw_pre g = vw_pre v /\ vw_pst g = vw_pst v /\
  vw_res g = (r, z) :: vw_res v /\ vw_norig g = vw_norig v /\ vw_orig g = vw_orig v.
Proof.
  intros mem l s A t2 G slot this p F t1 Pl E. pose proof (play_ok _ _ _ _ Pl) as Ok.
  destruct (Ok _ _ _ E) as (h & O1 & O2 & n & r & z & t0 & ->).
  assert (E' : h_tr (s_h s) = (t2 ++ [OBegin G slot this p (KRecall F)]) ++ ORecall F n r z :: t0) by (rewrite E, <- app_assoc; reflexivity).
  destruct (Ok _ _ _ E') as (h2 & O3 & O4 & O5).
  assert (Fa : facts (see t0 F)).
  { eapply all_facts. eapply (all_ok_app _ (t2 ++ [OBegin G slot this p (KRecall F); ORecall F n r z])). rewrite <- app_assoc. rewrite E in Ok. exact Ok. }
  exists n, r, z, t0. split; [reflexivity|]. cbn zeta. cbn [see]. rewrite !Nat.eqb_refl. cbn [see] in O1, O2. rewrite Nat.eqb_refl in O1, O2.
  set (v := see t0 F) in *. pose proof (fa_no _ Fa) as Hno. unfold vw_continue, vw_recall, vw_result, vw_res in *. cbn zeta in *.
  destruct (vw_post v) eqn:Hp; cbn [vw_slot vw_this vw_param vw_post vw_pre vw_pst vw_res1 vw_res2 vw_norig vw_orig] in *; repeat (split; [solve [auto]|]); auto.
  split; [|auto]. destruct (Hno eq_refl) as [_ ->]. reflexivity.
Qed.
Print Assumptions C13_continues.

(** The recall does not run again what has run already. *)
Theorem C13_not_again : forall mem l s A t2 G slot this p F t1 u2 n hd ip q u1, play mem l s A ->
  h_tr (s_h s) = t2 ++ OBegin G slot this p (KRecall F) :: t1 -> h_tr (s_h s) = u2 ++ OHandler G n hd ip q :: u1 ->
  q = p /\ ~ In n (if vw_post (see u1 G) then vw_pst (see t1 F) else vw_pre (see t1 F)).
Proof.
  intros mem l s A t2 G slot this p F t1 u2 n hd ip q u1 Pl E1 E2.
  destruct (play_inv _ _ _ _ Pl) as [L _]. pose proof (li_beg _ _ _ L) as Nd.
  assert (Bg : In G (flat_map begins u1)) by (eapply play_begun; [exact Pl|exact E2|reflexivity]).
  assert (Nd2 := Nd). rewrite E2 in Nd2. replace (u2 ++ OHandler G n hd ip q :: u1) with ((u2 ++ [OHandler G n hd ip q]) ++ u1) in Nd2 by (rewrite <- app_assoc; reflexivity).
  destruct (begins_tail _ _ Nd2) as [Nd3 Out]. specialize (Out G Bg).
  assert (Eq : exists w, u1 = w ++ OBegin G slot this p (KRecall F) :: t1 /\ ~ In G (flat_map begins w)).
  { assert (NG1 : ~ In G (flat_map begins t1)).
    { rewrite E1 in Nd. replace (t2 ++ OBegin G slot this p (KRecall F) :: t1) with ((t2 ++ [OBegin G slot this p (KRecall F)]) ++ t1) in Nd by (rewrite <- app_assoc; reflexivity).
      destruct (begins_tail _ _ Nd) as [_ O]. intros I. apply (O G I). rewrite flat_map_app. apply in_app_iff. right. now left. }
    rewrite E1 in E2. symmetry in E2. replace (u2 ++ OHandler G n hd ip q :: u1) with ((u2 ++ [OHandler G n hd ip q]) ++ u1) in E2 by (rewrite <- app_assoc; reflexivity).
    destruct (app_cases _ _ _ _ _ _ E2) as [(w & _ & Ew2)|(w & Ew2 & _)]; cycle 1.
    - exists w. split; [exact Ew2|]. rewrite Ew2, flat_map_app in Nd3. clear - Nd3. intros I. induction (flat_map begins w) as [|y r IH]; [contradiction|]. cbn [app] in Nd3. apply NoDup_cons_iff in Nd3. destruct I as [->|I]; [|tauto].
      apply (proj1 Nd3). apply in_app_iff. right. now left.
    - exfalso. apply NG1. rewrite Ew2, flat_map_app. apply in_app_iff. now right. }
  destruct Eq as (w & -> & NG).
  destruct (play_ok _ _ _ _ Pl _ _ _ E2) as (h & _ & _ & _ & O4 & O5 & _).
  set (t := OBegin G slot this p (KRecall F) :: t1) in *.
  assert (V : see t G = vw_continue slot this p (see t1 F)) by (unfold t; cbn [see]; now rewrite Nat.eqb_refl).
  split.
  - rewrite O4. apply (see_params (w ++ t) G slot this p (KRecall F)); [apply in_app_iff; right; now left|exact Nd3].
  - intros I. apply O5. unfold vw_ran. destruct (vw_post (see (w ++ t) G)).
    + apply pst_mono; [exact NG|]. now rewrite V.
    + apply pre_mono; [exact NG|]. now rewrite V.
Qed.
Print Assumptions C13_not_again.

(** The call that was recalled from runs no handler and not the original function
    any more ... *)
Theorem C13_outer_stops : forall mem l s A t2 F n r z t1 o, play mem l s A -> h_tr (s_h s) = t2 ++ ORecall F n r z :: t1 -> In o t2 ->
  match o with OHandler G _ _ _ _ | OOrig G _ _ _ | ORecall G _ _ _ => G <> F | _ => True end.
Proof.
  intros mem l s A t2 F n r z t1 o Pl E I. apply in_split in I. destruct I as (a & b & ->).
  assert (E' : h_tr (s_h s) = a ++ o :: (b ++ ORecall F n r z :: t1)) by (rewrite E, <- app_assoc; reflexivity).
  assert (R : vw_rec (see (b ++ ORecall F n r z :: t1) F) = true).
  { apply rec_mono.
    - destruct (play_inv _ _ _ _ Pl) as [L _]. pose proof (li_beg _ _ _ L) as Nd. rewrite E' in Nd.
      assert (B : In F (flat_map begins t1)).
      { eapply (play_begun _ _ _ _ (a ++ o :: b)); [exact Pl|exact E|reflexivity]. }
      replace (a ++ o :: b ++ ORecall F n r z :: t1) with ((a ++ [o]) ++ b ++ ORecall F n r z :: t1) in Nd by (rewrite <- app_assoc; reflexivity).
      destruct (begins_tail _ _ Nd) as [Nd2 _]. replace (b ++ ORecall F n r z :: t1) with ((b ++ [ORecall F n r z]) ++ t1) in Nd2 by (rewrite <- app_assoc; reflexivity).
      destruct (begins_tail _ _ Nd2) as [_ O]. intros I. apply (O F B). rewrite flat_map_app. apply in_app_iff. now left.
    - cbn [see]. rewrite Nat.eqb_refl. reflexivity. }
  destruct (play_ok _ _ _ _ Pl _ _ _ E') as (h & O).
  destruct o; try exact I; intros ->; cbn [obs_ok] in O.
  - destruct O as (_ & O & _). congruence.
  - destruct O as (_ & _ & O). congruence.
  - destruct O as (_ & _ & _ & O & _). congruence.
Qed.
Print Assumptions C13_outer_stops.

(** ... and returns when the recall returns, with the value of the recall. *)
Theorem C13_outer_value : forall mem l s A G slot this p F y, play mem l s A -> In (OBegin G slot this p (KRecall F)) (h_tr (s_h s)) ->
  In (OEnd G y) (h_tr (s_h s)) <-> In (OEnd F y) (h_tr (s_h s)).
Proof.
  intros mem l s A G slot this p F y Pl B.
  assert (One : forall mem l s A, play mem l s A -> forall G slot this p F y, In (OBegin G slot this p (KRecall F)) (h_tr (s_h s)) -> In (OEnd G y) (h_tr (s_h s)) -> In (OEnd F y) (h_tr (s_h s))).
  { clear. intros mem l. induction l as [|e l IH] using rev_ind; intros s A (Ev & pfs & vt & Wf & T) G slot this p F y B I; [inversion T; subst; contradiction|].
    destruct (tracks_split _ _ _ _ _ _ T) as (s1 & A1 & T1 & T2).
    assert (Pl1 : play mem l s1 A1) by (split; [exact Ev|]; exists pfs, vt; auto).
    destruct (play_inv _ _ _ _ Pl1) as [L S]. destruct (tracks_one _ _ _ _ _ T2) as (Al & E & x & Ea & ->).
    destruct (step_loop mem s1 A1 e s Ev L Al E) as (x' & new & Ea' & L' & Sn & _ & Hn & Hnn & _). assert (x' = x) by congruence. subst x'. unfold since in Sn.
    assert (Cs : In (OEnd G y) (w_obs (as_w x)) /\ runs e = true \/ In (OEnd G y) (h_tr (s_h s1))).
    { rewrite Sn in I. apply in_app_iff in I. destruct I as [I|I]; [|now right]. left. destruct (runs e) eqn:Er; [now rewrite <- (Hn eq_refl)|].
      exfalso. specialize (Hnn eq_refl). rewrite Forall_forall in Hnn. now apply Hnn in I. }
    destruct Cs as [[I' Er]|I'].
    - rewrite Sn, (Hn Er). apply in_app_iff. left. eapply (recall_ends mem s1 A1 e s x G F); eauto.
    - rewrite Sn. apply in_app_iff. right. eapply (IH _ _ Pl1 G slot this p); [|exact I'].
      rewrite Sn in B. apply in_app_iff in B. destruct B as [B|B]; [exfalso|exact B].
      apply in_split in I'. destruct I' as (a & b & E').
      assert (Bg : In G (flat_map begins (h_tr (s_h s1)))).
      { rewrite E', flat_map_app. apply in_app_iff. right. apply in_app_iff. right. eapply play_begun; [exact Pl1|exact E'|reflexivity]. }
      pose proof (li_beg _ _ _ L') as Nd. rewrite Sn in Nd. destruct (begins_tail _ _ Nd) as [_ O]. apply (O G Bg). eapply in_begins. exact B. }
  split; intros I; [eapply One; eauto|].
  assert (BG : In G (flat_map begins (h_tr (s_h s)))) by (eapply in_begins; exact B).
  assert (BF : In F (flat_map begins (h_tr (s_h s)))).
  { apply in_split in I. destruct I as (a & b & E). rewrite E, flat_map_app. apply in_app_iff. right. apply in_app_iff. right. eapply play_begun; [exact Pl|exact E|reflexivity]. }
  assert (NF : ~ In F (map af_id A)) by (apply (play_over _ _ _ _ F Pl BF); eexists; exact I).
  assert (NG : ~ In G (map af_id A)).
  { intros IG. destruct (play_inv _ _ _ _ Pl) as [_ S]. destruct (si_rec _ _ S _ _ _ _ _ B IG) as (N & aft & B' & Es). apply NF.
    assert (Em : map af_id A = map (fun x => fst (fst x)) (map fst (map sig A))) by (rewrite !map_map; reflexivity).
    rewrite Em, Es, map_app. apply in_app_iff. right. right. now left. }
  apply (play_over _ _ _ _ G Pl BG) in NG. destruct NG as (y' & I'). assert (I'' := One _ _ _ _ Pl _ _ _ _ _ _ B I').
  assert (y = y') as -> by (eapply play_end_once; eauto). exact I'.
Qed.
Print Assumptions C13_outer_value.
(** Example: handler 43 recalls with argument 8; the recall runs 42, the original
    function, 44 and 46, with the new argument, and both calls return 66, which
    42 gave. *)
Definition ex_recall : list event := ex_setup ++ [ECall 1000 0 2 7; ESetRes MHandled; EReturn 0; ERecall MOverride 65 0 0 2 8].
Definition ex_recalled : list event := ex_recall ++ [ESetRes MOverride; EReturn 66; EReturn 99; EReturn 0; EReturn 0].
Definition ex_R : nat := Eval vm_compute in match filter (fun o => match o with OBegin _ _ _ _ (KRecall _) => true | _ => false end) (h_tr (s_h (ex_at ex_recall))) with OBegin g _ _ _ _ :: _ => g | _ => 0 end.
Example C13_ex :
  play ex_mem ex_recalled (ex_at ex_recalled) (ex_fr ex_recalled) /\ In (OBegin ex_R ex_slot 1000 8 (KRecall ex_F)) (h_tr (s_h (ex_at ex_recalled))) /\
  map (fun o => match o with OHandler f n hd _ q => (f, hd, q) | OOrig f _ _ q => (f, 0%Z, q) | _ => (0, 0%Z, 0%Z) end)
    (filter (fun o => match o with OHandler _ _ _ _ _ | OOrig _ _ _ _ => true | _ => false end) (rev (h_tr (s_h (ex_at ex_recalled))))) =
    [(ex_F, 41, 7); (ex_F, 43, 7); (ex_R, 42, 8); (ex_R, 0, 8); (ex_R, 44, 8); (ex_R, 46, 8)]%Z /\
  In (OEnd ex_R 66) (h_tr (s_h (ex_at ex_recalled))) /\ In (OEnd ex_F 66) (h_tr (s_h (ex_at ex_recalled))) /\
  (exists t2 t1, h_tr (s_h (ex_at ex_recalled)) = t2 ++ ORecall ex_F (ex_nid 43) MOverride 65 :: t1).
Proof.
  split; [apply ex_plays; vm_compute; reflexivity|]. split; [vm_compute; tauto|]. split; [vm_compute; reflexivity|]. split; [vm_compute; tauto|]. split; [vm_compute; tauto|].
  apply in_split. vm_compute. tauto.
Qed.

(** ** C14 What a recall keeps *)
Definition result_of (F : nat) (o : obs) : bool := match o with OHandlerRet f _ _ _ | ORecall f _ _ _ => f =? F | _ => false end.
Lemma no_result_res : forall l t F, ~ In F (flat_map begins l) -> existsb (result_of F) l = false ->
  vw_res (see (l ++ t) F) = vw_res (see t F) /\ (vw_prev (see t F) = MIgnored -> vw_prev (see (l ++ t) F) = MIgnored).
Proof.
  induction l as [|o l IH]; intros t F NB NR; [auto|]. cbn [flat_map] in NB. cbn [existsb] in NR. apply orb_false_iff in NR. destruct NR as [R1 R2].
  assert (NB' : ~ In F (flat_map begins l)) by (intros I; apply NB, in_app_iff; now right). destruct (IH t F NB' R2) as [I1 I2]. cbn [app see].
  destruct o; auto; cbn [result_of] in R1; rewrite ?R1; auto.
  - destruct (Nat.eqb_spec fid F) as [->|]; [|auto]. exfalso. apply NB. now left.
  - destruct (fid =? F); [|auto]. unfold vw_call, vw_res in *. destruct (vw_post (see (l ++ t) F)); auto.
  - destruct (fid =? F); auto.
  - destruct (fid =? F); auto.
  - destruct (fid =? F); [|auto]. split; [exact I1|auto].
Qed.
(** Status and override value are kept: the first handler that runs after the
    recall [G] sees the results of all handlers of the call so far, also that of
    the handler that recalled.  Not the previous result: it is reset. *)
Theorem C14_kept_partial : forall mem l s A t2 G slot this p F n r z t0 m, play mem l s A ->
  h_tr (s_h s) = t2 ++ OBegin G slot this p (KRecall F) :: ORecall F n r z :: t0 -> existsb (result_of G) t2 = false ->
  in_handler s = Some (G, m) ->
  let res := (r, z) :: vw_res (see t0 F) in
  q_status s = Some (max_res res) /\ q_override_ret s = Some (last_override res) /\ q_prev s = Some MIgnored.
Proof.
  intros mem l s A t2 G slot this p F n r z t0 m Pl E NR Hh res.
  destruct (C13_continues _ _ _ _ _ _ _ _ _ _ _ Pl E) as (n' & r' & z' & t0' & E0 & H). injection E0 as <- <- <- <-. cbn zeta in H.
  destruct H as (_ & _ & _ & _ & _ & _ & _ & _ & _ & _ & Er & _).
  destruct (C07_queries _ _ _ _ _ _ Pl Hh) as (_ & Q1 & Q2 & Q3 & _).
  assert (NB : ~ In G (flat_map begins t2)).
  { destruct (play_inv _ _ _ _ Pl) as [L _]. pose proof (li_beg _ _ _ L) as Nd. rewrite E in Nd. destruct (begins_tail _ _ Nd) as [_ O]. apply O. now left. }
  destruct (no_result_res t2 (OBegin G slot this p (KRecall F) :: ORecall F n r z :: t0) G NB NR) as [R1 R2].
  rewrite E in Q1, Q2, Q3. rewrite R1 in Q1, Q3. rewrite Er in Q1, Q3. split; [exact Q1|]. split; [exact Q3|]. rewrite Q2. f_equal. apply R2.
  cbn [see]. rewrite Nat.eqb_refl. reflexivity.
Qed.
Print Assumptions C14_kept_partial.
(** The full statement is wrong: here handler 43 recalled with MRES_OVERRIDE, the
    next handler (42) sees the status MRES_OVERRIDE but the previous result
    MRES_IGNORED. *)
Theorem C14_refuted : ~ (forall mem l s A t2 G slot this p F n r z t0 m, play mem l s A ->
  h_tr (s_h s) = t2 ++ OBegin G slot this p (KRecall F) :: ORecall F n r z :: t0 -> existsb (result_of G) t2 = false ->
  in_handler s = Some (G, m) -> q_prev s = Some r).
Proof.
  intros H.
  assert (E : exists t2 n t0, h_tr (s_h (ex_at ex_recall)) = t2 ++ OBegin ex_R ex_slot 1000 8 (KRecall ex_F) :: ORecall ex_F n MOverride 65 :: t0 /\ existsb (result_of ex_R) t2 = false).
  { exists [hd (OPost 0) (h_tr (s_h (ex_at ex_recall)))], (ex_nid 43), (skipn 3 (h_tr (s_h (ex_at ex_recall)))). split; vm_compute; reflexivity. }
  destruct E as (t2 & n & t0 & E & NR).
  assert (Hh : in_handler (ex_at ex_recall) = Some (ex_R, ex_nid 42)) by (vm_compute; reflexivity).
  assert (Pl : play ex_mem ex_recall (ex_at ex_recall) (ex_fr ex_recall)) by (apply ex_plays; vm_compute; reflexivity).
  specialize (H ex_mem ex_recall _ _ _ _ _ _ _ _ _ _ _ _ _ Pl E NR Hh).
  assert (X : q_prev (ex_at ex_recall) = Some MIgnored) by (vm_compute; reflexivity). rewrite X in H. discriminate H.
Qed.
Print Assumptions C14_refuted.
Example C14_ex : q_status (ex_at ex_recall) = Some MOverride /\ q_override_ret (ex_at ex_recall) = Some (Some 65%Z) /\ q_prev (ex_at ex_recall) = Some MIgnored.
Proof. repeat apply conj; vm_compute; reflexivity. Qed.

(** ** C15 SH_CALL *)
Lemma play_reach : forall mem l s A, play mem l s A -> reachable mem s.
Proof. intros mem l s A (_ & pfs & vt & P & T). exists pfs, vt, l. split; [exact P|]. eapply tracks_run. exact T. Qed.
Lemma orig_fixed : forall m0 l t F z, all_ok m0 (l ++ t) -> ~ In F (flat_map begins l) -> vw_orig (see t F) = Some z -> vw_post (see t F) = true ->
  vw_orig (see (l ++ t) F) = Some z.
Proof.
  intros m0 l t F z. induction l as [|o l IH]; intros H NI N P; [exact N|]. cbn [flat_map] in NI. rewrite in_app_iff in NI.
  assert (IH' := IH (all_ok_app m0 [o] (l ++ t) H) (fun X => NI (or_intror X)) N P).
  assert (N' := post_mono l t F (fun X => NI (or_intror X)) P).
  destruct (H [] o (l ++ t) eq_refl) as (h & O). cbn [app see]. destruct o; auto; destruct (_ =? F) eqn:Ef; auto; apply Nat.eqb_eq in Ef; subst.
  - exfalso. apply NI. left. now left.
  - unfold vw_call. rewrite N'; exact IH'.
  - unfold vw_result. rewrite N'; exact IH'.
  - unfold vw_recall, vw_result. cbn zeta. rewrite N'; exact IH'.
  - destruct O as (O & _). congruence.
Qed.
(** The call ignores hooks: no handler is called; the original function is
    called once, with the object and the arguments of the call, and its value is
    the value of the call. *)
Theorem C15_no_handlers : forall mem l s A F slot this p, play mem l s A -> In (OBegin F slot this p KIgnored) (h_tr (s_h s)) ->
  (forall n hd ip q, ~ In (OHandler F n hd ip q) (h_tr (s_h s))) /\
  (forall c th q, In (OOrig F c th q) (h_tr (s_h s)) -> c = COrig (mem slot) /\ th = this /\ q = p) /\
  let v := see (h_tr (s_h s)) F in
  vw_norig v <= 1 /\ forall z, In (OEnd F z) (h_tr (s_h s)) -> vw_norig v = 1 /\ vw_orig v = Some z.
Proof.
  intros mem l s A F slot this p Pl B. destruct (play_inv _ _ _ _ Pl) as [L _]. pose proof (li_beg _ _ _ L) as Nd.
  assert (Par : forall t2 o t1, h_tr (s_h s) = t2 ++ o :: t1 -> call_of o = Some F -> vw_slot (see t1 F) = slot /\ vw_this (see t1 F) = this /\ vw_param (see t1 F) = p /\ vw_ign (see t1 F) = true).
  { intros t2 o t1 E Co. destruct (play_params _ _ _ _ _ _ _ F Pl E Co) as (sl & th & q & k & I & NI & V1 & V2 & V3 & V4).
    pose proof (see_params _ _ _ _ _ _ B Nd) as (W1 & W2 & W3 & W4).
    assert (I' : In (OBegin F sl th q k) (h_tr (s_h s))) by (rewrite E; apply in_app_iff; right; now right).
    pose proof (see_params _ _ _ _ _ _ I' Nd) as (X1 & X2 & X3 & X4). rewrite V1, V2, V3, V4. repeat split; congruence. }
  destruct (C05_count _ _ _ _ _ _ _ _ _ Pl B) as (K1 & K2 & K3). pose proof (all_facts _ _ (play_ok _ _ _ _ Pl) F) as Fa.
  destruct (see_params _ _ _ _ _ _ B Nd) as (_ & _ & _ & Ig).
  destruct (fa_ign _ Fa Ig) as (_ & _ & R1 & R2 & _).
  split; [|split; [|split; [exact K1|]]].
  - intros n hd ip q I. apply in_split in I. destruct I as (t2 & t1 & E). destruct (Par _ _ _ E eq_refl) as (_ & _ & _ & V).
    destruct (play_ok _ _ _ _ Pl _ _ _ E) as (h & O & _). congruence.
  - intros c th q I. apply in_split in I. destruct I as (t2 & t1 & E). destruct (Par _ _ _ E eq_refl) as (V1 & V2 & V3 & _).
    destruct (play_ok _ _ _ _ Pl _ _ _ E) as (h & _ & _ & _ & _ & O5 & O6 & O7). rewrite O5, O6, O7, V1, V2, V3. auto.
  - intros z I. assert (Ov : over (h_tr (s_h s)) F) by (now exists z). specialize (K3 Ov). rewrite R1 in K3. split; [exact K3|].
    assert (Ok := play_ok _ _ _ _ Pl). apply in_split in I. destruct I as (t2 & t1 & E).
    pose proof (C06_value _ _ _ _ _ _ _ _ Pl E) as Vz. destruct (play_params _ _ _ _ _ _ _ F Pl E eq_refl) as (sl & th & q & k & I & NI & _).
    destruct (Par _ _ _ E eq_refl) as (_ & _ & _ & V). rewrite E in Ok.
    assert (Ok1 : all_ok mem t1) by (eapply (all_ok_app mem (t2 ++ [OEnd F z])); rewrite <- app_assoc; exact Ok).
    destruct (fa_ign _ (all_facts _ _ Ok1 F) V) as (_ & _ & R3 & R4 & _). unfold vw_res in Vz. rewrite R3, R4 in Vz. cbn [app last_override] in Vz.
    rewrite E. replace (t2 ++ OEnd F z :: t1) with ((t2 ++ [OEnd F z]) ++ t1) by (rewrite <- app_assoc; reflexivity).
    apply (orig_fixed mem); [rewrite <- app_assoc; exact Ok| |exact Vz|].
    + rewrite flat_map_app. intros I'. apply in_app_iff in I'. destruct I' as [I'|[]]. contradiction.
    + destruct (Ok _ _ _ eq_refl) as (h & O & _). exact O.
Qed.

Print Assumptions C15_no_handlers.

(** An SH_CALL that is still running: the function called was not hooked, so that
    the request to ignore hooks has not been used up; [A]: innermost first; no
    hook function has been entered since. *)
Definition sh_open (A : list aframe) : Prop :=
  exists N f B, A = N ++ f :: B /\ Forall (fun g => af_hook g = None) (N ++ [f]) /\ af_ign f = true.
Lemma quiet_take : forall A, ~ sh_open A <-> take_ign A = None.
Proof.
  induction A as [|f A IH]; [split; [reflexivity|intros _ (N & f & B & E & _); destruct N; discriminate]|]. cbn [take_ign]. split.
  - intros H. destruct (af_hook f) eqn:Eh; [reflexivity|]. destruct (af_ign f) eqn:Ei.
    + exfalso. apply H. exists [], f, A. split; [reflexivity|]. split; [constructor; auto|exact Ei].
    + assert (X : take_ign A = None). { apply IH. intros (N & g & B & -> & Fa & Ig). apply H. exists (f :: N), g, B. split; [reflexivity|]. split; [constructor; auto|exact Ig]. }
      now rewrite X.
  - intros H (N & g & B & E & Fa & Ig). destruct N as [|f' N]; cbn [app] in *; injection E as <- E.
    + inversion Fa; subst. rewrite H2, Ig in H. discriminate.
    + inversion Fa as [|? ? F1 F2]; subst. rewrite F1 in H. destruct (af_ign f); [discriminate|]. destruct (take_ign (N ++ g :: B)) eqn:Et; [discriminate|].
      apply (proj2 IH eq_refl). exists N, g, B. auto.
Qed.
Lemma begins_here : forall mem l s A e s1 A1 slot this p k, play mem l s A -> tracks s A [e] s1 A1 -> runs e = true ->
  (forall x, astep (s_h s) (s_h s1) A (b_pend (s_b s)) e = Some x -> In (OBegin (h_nxt (s_h s)) slot this p k) (w_obs (as_w x))) ->
  starts s A e s1 A1 (h_nxt (s_h s)) slot this p k.
Proof.
  intros mem l s A e s1 A1 slot this p k Pl T Hr H. destruct (play_inv _ _ _ _ Pl) as [L _]. pose proof (proj1 Pl) as Ev. split; [exact T|].
  destruct (tracks_one _ _ _ _ _ T) as (Al & E & x & Ea & ->).
  destruct (step_loop mem s A e s1 Ev L Al E) as (x' & new & Ea' & _ & Sn & _ & Hn & _). assert (x' = x) by congruence. subst x'. unfold since in Sn. split.
  - rewrite Sn, (Hn Hr). apply in_app_iff. left. auto.
  - intros I. apply (li_fid _ _ _ L _ (h_nxt (s_h s))) in I; [lia|reflexivity].
Qed.
Lemma hooked_code : forall mem l s A slot, play mem l s A -> hooked (s_h s) slot -> is_hookcode (h_mem (s_h s) slot) = true.
Proof. intros mem l s A slot Pl H. destruct (C08_slot mem s (play_reach _ _ _ _ Pl) slot) as [X _]. destruct (X H) as (o & f & _ & _ & -> & _). reflexivity. Qed.

(** SH_CALL on a hooked function makes a call that ignores hooks. *)
Theorem C15_direct : forall mem l s A this vo idx p s1 A1, play mem l s A -> tracks s A [ESHCall this vo idx p] s1 A1 ->
  let slot := slot_of (s_h s) this vo idx in hooked (s_h s) slot ->
  exists F, starts s A (ESHCall this vo idx p) s1 A1 F slot this p KIgnored.
Proof.
  intros mem l s A this vo idx p s1 A1 Pl T slot H. exists (h_nxt (s_h s)). eapply begins_here; eauto. intros x Ea. cbn [astep] in Ea. fold slot in Ea.
  rewrite (hooked_code _ _ _ _ _ Pl H) in Ea. injection Ea as <-. unfold a_ignored. fold slot.
  match goal with |- In _ (w_obs (as_w (a_resume ?h ?o ?F ?aft ?B))) => destruct (emits_resume h o F aft B _ (emits_pre _ _ _ _ _ _)) as (w & -> & _) end.
  apply in_app_iff. right. now left.
Qed.
Print Assumptions C15_direct.
(** Another call of a hooked function, made while no SH_CALL of an unhooked
    function runs, is dispatched to hooks: in particular a call from a handler or
    from an original function that was reached by a hook function ([C15_inside]),
    such as the function that SH_CALL called. *)
Theorem C15_dispatched : forall mem l s A this vo idx p s1 A1, play mem l s A -> tracks s A [ECall this vo idx p] s1 A1 ->
  let slot := slot_of (s_h s) this vo idx in hooked (s_h s) slot -> ~ sh_open A ->
  exists F, starts s A (ECall this vo idx p) s1 A1 F slot this p KNormal.
Proof.
  intros mem l s A this vo idx p s1 A1 Pl T slot H Q. exists (h_nxt (s_h s)). eapply begins_here; eauto. intros x Ea. cbn [astep] in Ea. fold slot in Ea.
  rewrite (hooked_code _ _ _ _ _ Pl H) in Ea. apply quiet_take in Q. rewrite Q in Ea. injection Ea as <-. unfold a_hooked. fold slot.
  match goal with |- In _ (w_obs (as_w (a_resume ?h ?o ?F ?aft ?B))) => destruct (emits_resume h o F aft B _ (emits_pre _ _ _ _ _ _)) as (w & -> & _) end.
  apply in_app_iff. right. now left.
Qed.
Print Assumptions C15_dispatched.
(** The code that runs now belongs to a hooked call (one of its handlers or its
    original function). *)
Theorem C15_inside : forall mem l s A F, play mem l s A -> hd_error (map af_id A) = Some F -> In F (flat_map begins (h_tr (s_h s))) -> ~ sh_open A.
Proof.
  intros mem l s A F Pl Hd B. destruct (play_inv _ _ _ _ Pl) as [_ S]. apply quiet_take. destruct A as [|f A]; [reflexivity|]. cbn [map hd_error] in Hd. injection Hd as <-.
  assert (X : hookb f = true) by (apply (si_hook _ _ S); [now left|exact B]). unfold hookb in X. cbn [take_ign]. destruct (af_hook f); [reflexivity|discriminate].
Qed.
Print Assumptions C15_inside.
(** Contexts are balanced: when the calls made since are over, the depth of the
    context stack is as before, and the next calls are treated as before.  If
    only functions were called and returned and no API function was used, the
    hooks are as before. *)
Theorem C15_restored : forall mem l s A l' s' A', play mem l s A -> ~ sh_open A -> tracks s A l' s' A' -> map af_id A' = map af_id A ->
  cs_depth (b_cs (s_b s')) = cs_depth (b_cs (s_b s)) /\ ~ sh_open A' /\
  (forallb runs l' = true -> forall sl a b, installed (s_h s') sl a b = installed (s_h s) sl a b).
Proof.
  intros mem l s A l' s' A' Pl Q T Ei. pose proof (proj1 Pl) as Ev. destruct (play_inv _ _ _ _ Pl) as [L _]. destruct (play_inv _ _ _ _ (play_more _ _ _ _ _ _ _ Pl T)) as [L' _].
  apply quiet_take in Q. pose proof (balanced mem _ _ _ _ _ Ev (li_c _ _ _ L) Q T Ei) as Sg. split; [|split].
  - rewrite <- (cinv_depth _ _ _ (li_c _ _ _ L)), <- (cinv_depth _ _ _ (li_c _ _ _ L')). now apply depth_sig.
  - apply quiet_take. pose proof (take_sig_map A) as X. rewrite Q in X. cbn [option_map] in X. rewrite <- Sg, take_sig_map in X. destruct (take_ign A'); [discriminate|reflexivity].
  - intros Hr. assert (V : h_vfns (s_h s') = h_vfns (s_h s)).
    { clear - T Hr. induction T as [|s A e s1 x l s' A' Al E Ea T IH]; [reflexivity|]. cbn [forallb] in Hr. apply andb_prop in Hr. destruct Hr as [H1 H2].
      rewrite (IH H2). exact (rs_vfns _ _ (step_runs _ _ _ H1 E)). }
    intros sl a b. unfold installed. now rewrite V.
Qed.
Print Assumptions C15_restored.

(** Example: SH_CALL on the hooked function; its original code (99 is its result)
    calls the function again, which is dispatched to the hooks as usual. *)
Definition ex_sh : list event := ex_setup ++ [ESHCall 1000 0 2 7].
Definition ex_sh2 : list event := ex_sh ++ [ECall 1000 0 2 8; EReturn 0; EReturn 0; EReturn 0; EReturn 98; EReturn 0; EReturn 0].
Example C15_ex :
  play ex_mem ex_sh2 (ex_at ex_sh2) (ex_fr ex_sh2) /\ hooked (s_h (ex_at ex_setup)) ex_slot /\ ~ sh_open (ex_fr ex_setup) /\ ~ sh_open (ex_fr ex_sh) /\
  In (OBegin ex_F ex_slot 1000 7 KIgnored) (h_tr (s_h (ex_at ex_sh2))) /\ ex_seen (h_tr (s_h (ex_at ex_sh2))) = [10032; 41; 43; 42; 10032; 44; 46]%Z /\
  play ex_mem (ex_sh2 ++ [EReturn 99]) (ex_at (ex_sh2 ++ [EReturn 99])) (ex_fr (ex_sh2 ++ [EReturn 99])) /\
  In (OEnd ex_F 99) (h_tr (s_h (ex_at (ex_sh2 ++ [EReturn 99])))) /\ ex_fr (ex_sh2 ++ [EReturn 99]) = [] /\ map af_id (ex_fr ex_sh2) = map af_id (ex_fr ex_sh).
Proof.
  split; [apply ex_plays; vm_compute; reflexivity|]. split; [eexists 1000%Z, false, _; vm_compute; left; reflexivity|]. split; [apply quiet_take; vm_compute; reflexivity|]. split; [apply quiet_take; vm_compute; reflexivity|].
  split; [vm_compute; tauto|]. split; [vm_compute; reflexivity|]. split; [apply ex_plays; vm_compute; reflexivity|]. split; [vm_compute; tauto|]. split; vm_compute; reflexivity.
Qed.
(** Without the hypothesis ~ sh_open the depth is not preserved: inside an SH_CALL
    of a function that is not hooked, an SH_CALL of a hooked one uses up and
    removes the request of the outer one. *)
Definition ex_open : list event := ex_setup ++ [ESHCall 1000 0 5 7].
Theorem C15_depth_refuted : ~ (forall mem l s A l' s' A', play mem l s A -> tracks s A l' s' A' -> map af_id A' = map af_id A ->
  cs_depth (b_cs (s_b s')) = cs_depth (b_cs (s_b s))).
Proof.
  intros H. assert (Pl : play ex_mem ex_open (ex_at ex_open) (ex_fr ex_open)) by (apply ex_plays; vm_compute; reflexivity).
  assert (T := ex_tracks ex_open [ESHCall 1000 0 2 8; EReturn 3] ltac:(vm_compute; reflexivity)).
  assert (E : map af_id (ex_fr (ex_open ++ [ESHCall 1000 0 2 8; EReturn 3])) = map af_id (ex_fr ex_open)) by (vm_compute; reflexivity).
  specialize (H _ _ _ _ _ _ _ Pl T E). revert H. vm_compute. intros H. discriminate H.
Qed.
Print Assumptions C15_depth_refuted.

(** ** C16 SH_CALL and other functions *)
(** The property says: a call of a hooked function is dispatched to hooks even if
    an SH_CALL of another function is running.  That is wrong: SetIgnoreHooks
    ignores its argument, and the next call of any hooked function ignores hooks. *)
Theorem C16_refuted : ~ (forall mem l s A this0 vo0 idx0 p0 s0 A0 this vo idx p s1 A1, play mem l s A ->
  tracks s A [ESHCall this0 vo0 idx0 p0] s0 A0 -> tracks s0 A0 [ECall this vo idx p] s1 A1 ->
  let slot0 := slot_of (s_h s) this0 vo0 idx0 in let slot := slot_of (s_h s0) this vo idx in slot <> slot0 -> hooked (s_h s0) slot ->
  exists F, starts s0 A0 (ECall this vo idx p) s1 A1 F slot this p KNormal).
Proof.
  intros H. assert (Pl : play ex_mem ex_setup (ex_at ex_setup) (ex_fr ex_setup)) by (apply ex_plays; vm_compute; reflexivity).
  assert (T := ex_tracks ex_setup [ESHCall 1000 0 5 7] ltac:(vm_compute; reflexivity)). fold ex_open in T.
  assert (T2 := ex_tracks ex_open [ECall 1000 0 2 8] ltac:(vm_compute; reflexivity)).
  assert (Hk : hooked (s_h (ex_at ex_open)) (slot_of (s_h (ex_at ex_open)) 1000 0 2)) by (eexists 1000%Z, false, _; vm_compute; left; reflexivity).
  assert (Ne : slot_of (s_h (ex_at ex_open)) 1000 0 2 <> slot_of (s_h (ex_at ex_setup)) 1000 0 5) by (vm_compute; discriminate).
  destruct (H _ _ _ _ _ _ _ _ _ _ _ _ _ _ _ _ Pl T T2 Ne Hk) as (F & _ & I & _).
  assert (X : filter (fun o => match o with OBegin _ _ _ _ KNormal => true | _ => false end) (h_tr (s_h (ex_at (ex_open ++ [ECall 1000 0 2 8])))) = []) by (vm_compute; reflexivity).
  assert (Y : In (OBegin F (slot_of (s_h (ex_at ex_open)) 1000 0 2) 1000 8 KNormal) []).
  { rewrite <- X. apply filter_In. split; [exact I|reflexivity]. }
  destruct Y.
Qed.
Print Assumptions C16_refuted.
(** What holds: SH_CALL on a hooked function affects only that call
    (C15_direct, C15_inside, C15_dispatched). *)

(** ** C19 When a plugin may be unloaded *)
(** [asks p x e]: the event [e] is UnloadPlugin(p, x).  In every reachable state
    the listener [x] has been notified at most as often as it was asked for. *)
Theorem C19_at_most_once : forall mem pfs vt l s p x, (forall f i, pfs f = Some i -> proto_wf (pf_proto i)) ->
  run (init pfs mem vt) l = Ok s -> count (is_ready p x) (h_tr (s_h s)) <= count (asks p x) l.
Proof.
  intros mem pfs vt l s p x Wf E. pose proof (run_ready mem l _ _ p x (Good_init _ _ _ Wf) E) as R. unfold readies in R.
  change (b_h (s_b s)) with (s_h s) in R. cbn in R. lia.
Qed.
Print Assumptions C19_at_most_once.
Lemma any_in : forall p x l, In (OReady p x) (filter any_ready l) <-> In (OReady p x) l.
Proof. intros p x l. rewrite filter_In. cbn. tauto. Qed.
(** If no hook function is running, the listener is notified at once; otherwise
    not yet. *)
Theorem C19_immediate : forall mem l s A p x s1 A1, play mem l s A -> tracks s A [EUnload p x] s1 A1 ->
  exists new, since s s1 new /\ (In (OReady p x) new <-> cs_depth (b_cs (s_b s)) = 0).
Proof.
  intros mem l s A p x s1 A1 Pl T. pose proof (proj1 Pl) as Ev. destruct (play_inv _ _ _ _ Pl) as [L _]. destruct (tracks_one _ _ _ _ _ T) as (Al & E & y & Ea & ->).
  destruct (step_loop mem s A _ s1 Ev L Al E) as (x' & new & _ & _ & Sn & _). exists new. split; [exact Sn|].
  destruct (step_pend mem s A _ s1 new Ev L Al E Sn) as [(_ & _ & P & _)|[(q & m & Eq & _ & P)|(P & _)]]; [exfalso; eapply P; reflexivity| |discriminate].
  injection Eq as <- <-. destruct (Nat.eqb_spec (cs_depth (b_cs (s_b s))) 0) as [D|D]; destruct P as [_ P]; rewrite <- any_in, P; cbn; split; auto; try tauto; contradiction.
Qed.
Print Assumptions C19_immediate.
(** While [cs_depth] (the depth of the stack of contexts) is not 0 a plugin asks
    to be unloaded, and all earlier requests of this kind have been answered.
    When it is notified later: in between, the stack was empty once ([r]), and
    the notification is sent when it has become empty again ([s2]); no hook
    function is running then. *)
Theorem C19_deferred : forall mem l s A p x s1 A1 l' s' A' new, play mem l s A -> count (is_ready p x) (h_tr (s_h s)) = count (asks p x) l ->
  cs_depth (b_cs (s_b s)) <> 0 -> tracks s A [EUnload p x] s1 A1 -> tracks s1 A1 l' s' A' -> count (asks p x) l' = 0 ->
  since s1 s' new -> In (OReady p x) new ->
  exists k1 k2 e k3 r B s2 A2, l' = k1 ++ k2 ++ e :: k3 /\ k1 <> [] /\ runs e = true /\ tracks s1 A1 k1 r B /\ cs_depth (b_cs (s_b r)) = 0 /\
    tracks r B (k2 ++ [e]) s2 A2 /\ cs_depth (b_cs (s_b s2)) = 0 /\ (forall f, In f (s_fr s2) -> f_hook f = None) /\
    tracks s2 A2 k3 s' A' /\ count (is_ready p x) (h_tr (s_h s2)) > count (is_ready p x) (h_tr (s_h r)).
Proof.
  intros mem l s A p x s1 A1 l' s' A' new Pl Cn D T1 T2 Na Sn I. pose proof (proj1 Pl) as Ev. destruct (play_inv _ _ _ _ Pl) as [L _].
  assert (Pl1 := play_more _ _ _ _ _ _ _ Pl T1). destruct (play_inv _ _ _ _ Pl1) as [L1 _].
  assert (H1 : forall y, In y (b_pend (s_b s1)) -> is_pend p x y = true -> pd_deact y = false).
  { assert (Z0 : count (is_pend p x) (b_pend (s_b s)) = 0).
    { destruct Pl as (_ & pfs & vt & Wf & T). pose proof (run_ready mem l _ _ p x (Good_init _ _ _ Wf) (tracks_run _ _ _ _ _ T)) as R. unfold readies in R. change (b_h (s_b s)) with (s_h s) in R. cbn in R. lia. }
    destruct (tracks_one _ _ _ _ _ T1) as (Al & E & y & Ea & ->). destruct (step_loop mem s A _ s1 Ev L Al E) as (x' & nw & _ & _ & Sn1 & _).
    destruct (step_pend mem s A _ s1 nw Ev L Al E Sn1) as [(_ & _ & P & _)|[(q & m & Eq & _ & P)|(P & _)]]; [exfalso; eapply P; reflexivity| |discriminate].
    injection Eq as <- <-. rewrite (proj2 (Nat.eqb_neq _ _) D) in P. destruct P as [P _]. rewrite P. intros z Iz Hz. apply in_app_iff in Iz. destruct Iz as [Iz|[<-|[]]]; [exfalso|reflexivity].
    unfold count in Z0. assert (In z (filter (is_pend p x) (b_pend (s_b s)))) by (apply filter_In; auto). destruct (filter _ _); [contradiction|discriminate]. }
  (* the event that notifies *)
  assert (Ex : exists k e k3 q B s2 A2 nw, l' = k ++ e :: k3 /\ tracks s1 A1 k q B /\ LInv mem q B /\ tracks q B [e] s2 A2 /\ tracks s2 A2 k3 s' A' /\ since q s2 nw /\ In (OReady p x) nw).
  { clear - Ev L1 T2 Sn I. revert L1 new Sn I. induction T2 as [s A|s A e s1 y l s' A' Al E Ea T IH]; intros L new Sn I.
    - unfold since in Sn. assert (new = []) as -> by (symmetry; apply (app_inv_tail (h_tr (s_h s))); exact Sn). contradiction.
    - destruct (step_loop mem s A e s1 Ev L Al E) as (x' & nw & Ea' & L' & Sn1 & _). assert (x' = y) by congruence. subst x'.
      destruct (obs_rules mem _ _ _ _ _ Ev L' T) as (nw2 & N2 & _). unfold since in *.
      assert (new = nw2 ++ nw) as -> by (apply (app_inv_tail (h_tr (s_h s))); rewrite <- Sn, N2, Sn1, app_assoc; reflexivity).
      apply in_app_iff in I. destruct I as [I|I].
      + destruct (IH L' nw2 N2 I) as (k & e' & k3 & q & B & s2 & A2 & n3 & -> & Q1 & Q2 & Q3 & Q4 & Q5 & Q6).
        exists (e :: k), e', k3, q, B, s2, A2, n3. split; [reflexivity|]. split; [econstructor; eauto|auto].
      + exists [], e, l, s, A, s1, (as_fr y), nw. split; [reflexivity|]. split; [constructor|]. split; [exact L|]. split; [now apply one_tracks|auto]. }
  destruct Ex as (k & e & k3 & q & B & s2 & A2 & nw & -> & Q1 & Q2 & Q3 & Q4 & Q5 & Q6).
  destruct (tracks_one _ _ _ _ _ Q3) as (Al & E & y & Ea & ->).
  assert (Na1 : asks p x e = false). { unfold count in Na. rewrite filter_app in Na. cbn [filter] in Na. destruct (asks p x e); [rewrite app_length in Na; cbn in Na; lia|reflexivity]. }
  destruct (step_pend mem q B e s2 nw Ev Q2 Al E Q5) as [(_ & P & _)|[(q0 & m & -> & _ & P)|(P1 & P2 & P3 & P4 & P5)]].
  - exfalso. apply any_in in Q6. rewrite P in Q6. contradiction.
  - exfalso. apply any_in in Q6. destruct (_ =? 0); destruct P as [_ P]; rewrite P in Q6; [|contradiction]. destruct Q6 as [Q6|[]]. injection Q6 as -> ->. cbn [asks] in Na1. rewrite !Z.eqb_refl in Na1. discriminate.
  - apply any_in in Q6. rewrite P5 in Q6. apply in_rev in Q6. apply in_resolved in Q6.
    destruct (waits_twice mem p x s1 A1 k q B Ev L1 Q1 H1) as [(k1 & k2 & r & C & -> & K1 & K2 & K3)|W].
    + destruct (tracks_split k1 s1 A1 k2 q B Q1) as (r' & C' & T3 & T4).
      assert (r' = r). { apply tracks_run in K2. apply tracks_run in T3. congruence. } subst r'.
      exists k1, k2, e, k3, r, C', s2, (as_fr y). split; [now rewrite <- app_assoc|]. split; [exact K1|]. split; [exact P1|]. split; [exact T3|]. split; [exact K3|].
      split; [eapply tracks_app; eauto|]. split; [exact P2|]. split; [exact P3|]. split; [exact Q4|].
      assert (Lr : LInv mem r C') by (apply (play_inv _ _ _ _ (play_more _ _ _ _ _ _ _ Pl1 T3))).
      destruct (obs_rules mem _ _ _ _ _ Ev Lr T4) as (n5 & N5 & _). unfold since in Q5. rewrite Q5, N5, !count_app.
      assert (0 < count (is_ready p x) nw); [|lia]. assert (In (OReady p x) nw). { apply any_in. rewrite P5. apply -> in_rev. now apply in_resolved. }
      unfold count. assert (I' : In (OReady p x) (filter (is_ready p x) nw)) by (apply filter_In; split; [assumption|cbn; now rewrite !Z.eqb_refl]). destruct (filter (is_ready p x) nw); [destruct I'|cbn; lia].
    + exfalso. specialize (W _ Q6). unfold is_pend in W. cbn [pd_plug pd_listener pd_deact] in W. rewrite !Z.eqb_refl in W. discriminate (W eq_refl).
Qed.
Print Assumptions C19_deferred.
(** Example: plugin 2 asks in the first handler of a call; it is notified at the
    end of the next call. *)
Definition ex_unload : list event := ex_setup ++ [ECall 1000 0 2 7].
Definition ex_unload2 : list event := ex_unload ++ [EUnload 2 77; EReturn 0; EReturn 0; EReturn 99; EReturn 0].
Definition ex_unload3 : list event := ex_unload2 ++ [ECall 1000 0 2 7; EReturn 0; EReturn 0; EReturn 99; EReturn 0].
Example C19_ex :
  play ex_mem ex_unload3 (ex_at ex_unload3) (ex_fr ex_unload3) /\ cs_depth (b_cs (s_b (ex_at ex_unload))) <> 0 /\
  count (is_ready 2 77) (h_tr (s_h (ex_at ex_unload2))) = 0 /\ cs_depth (b_cs (s_b (ex_at ex_unload2))) = 0 /\ count (is_ready 2 77) (h_tr (s_h (ex_at ex_unload3))) = 1.
Proof. split; [apply ex_plays; vm_compute; reflexivity|]. split; [vm_compute; discriminate|]. repeat apply conj; vm_compute; reflexivity. Qed.

(** ** C21 Undefined behaviour *)
(** The rules [allowed], said without the running calls' internals:
    - functions are called on objects, not on NULL, and through the vtable
      position that the hook function was made for;
    - a handler recalls the function and object it was called for, while the
      function has hooks;
    - AddHook: not for NULL; the hook function belongs to one plugin; if a handler
      runs from a list that has been emptied meanwhile, the list is not filled
      again (unless the function has had no hooks at all in between);
    - RemoveHookManager (and SH_MANUALHOOK_RECONFIGURE): not while the plugin has
      hooks on the functions concerned.
    And original vtable entries are even ([play]).
    Everything such a program does next is defined, and is again such a history. *)
Theorem C21_defined : forall mem l s A e, play mem l s A -> allowed (s_h s) A e ->
  step s e <> UB /\ forall s', step s e = Ok s' -> exists A', play mem (l ++ [e]) s' A' /\ tracks s A [e] s' A'.
Proof.
  intros mem l s A e Pl Al. pose proof (proj1 Pl) as Ev. destruct (play_inv _ _ _ _ Pl) as [L _].
  pose proof (step_refines mem s A e Ev (li_c _ _ _ L) Al) as R. unfold agrees in R. split.
  - intros E. rewrite E in R. exact R.
  - intros s' E. destruct (step_loop mem s A e s' Ev L Al E) as (x & new & Ea & _).
    assert (T : tracks s A [e] s' (as_fr x)) by (now apply one_tracks). exists (as_fr x). split; [eapply play_more; eauto|exact T].
Qed.
Print Assumptions C21_defined.
(** The depth of the context stack: whenever the running calls are the same as
    before, it is the same, if no SH_CALL of an unhooked function was running
    (compare C15_depth_refuted); at the end of all calls it is 0. *)
Theorem C21_balanced : forall mem l s A l' s' A', play mem l s A -> ~ sh_open A -> tracks s A l' s' A' -> map af_id A' = map af_id A ->
  cs_depth (b_cs (s_b s')) = cs_depth (b_cs (s_b s)).
Proof. intros mem l s A l' s' A' Pl Q T E. now destruct (C15_restored _ _ _ _ _ _ _ Pl Q T E). Qed.
Print Assumptions C21_balanced.
Theorem C21_empty : forall mem l s A, play mem l s A -> s_fr s = [] -> cs_depth (b_cs (s_b s)) = 0.
Proof.
  intros mem l s A Pl E. destruct (play_inv _ _ _ _ Pl) as [L _]. rewrite <- (cinv_depth _ _ _ (li_c _ _ _ L)).
  pose proof (cinv_ids _ _ _ (li_c _ _ _ L)) as I. rewrite E in I. destruct A; [reflexivity|discriminate].
Qed.
Print Assumptions C21_empty.
(** The rules are needed: without them there is undefined behaviour. *)
Definition ub (l : list event) : bool := match run ex_init l with UB => true | _ => false end.
Definition okb (l : list event) : bool := match run ex_init l with Ok _ => true | _ => false end.
(** A hook function called through another position (an object whose vtable
    overlaps): its manager does not know the slot. *)
Example C21_rule_position : let l := ex_setup ++ [ESetVt 1300 5008] in okb l = true /\ ub (l ++ [ECall 1300 0 1 7]) = true.
Proof. split; vm_compute; reflexivity. Qed.
(** A recall after the last hook of the function has been removed. *)
Example C21_rule_recall : okb ex_last = true /\ ub (ex_last ++ [ERecall MOverride 1 0 0 2 8]) = true.
Proof. split; vm_compute; reflexivity. Qed.
(** Two plugins use one hook function for different classes: the hook function
    only knows the manager that was registered last. *)
Example C21_rule_shared :
  let l := [EAddHook 1 ANormal 1000 0 100 41 false; ESetVt 1300 6000; EAddHook 2 ANormal 1300 0 100 42 false] in
  okb l = true /\ ub (l ++ [ECall 1000 0 2 7]) = true.
Proof. split; vm_compute; reflexivity. Qed.
(** A handler removes the only hook of its list and adds another one: the
    iterator of the loop is dangling.  (The post hook keeps the function hooked.) *)
Example C21_rule_refill :
  let l := [EAddHook 1 AVP 1000 0 100 41 false; EAddHook 1 ANormal 1000 0 100 42 true; ECall 1000 0 2 7; ERemoveById 1; EAddHook 1 AVP 1000 0 100 43 false] in
  okb l = true /\ ub (l ++ [EReturn 0]) = true.
Proof. split; vm_compute; reflexivity. Qed.
(** A handler removes the manager its own hook function belongs to. *)
Example C21_rule_manager :
  let l := [EAddHook 1 ANormal 1000 0 100 41 false; EAddHook 1 ANormal 1000 0 100 42 false; ECall 1000 0 2 7; ERemoveMan 1 100] in
  exists l', ub (l ++ l') = true.
Proof. exists [EReturn 0; EReturn 0]. vm_compute; reflexivity. Qed.
Example C21_ex : play ex_mem ex_recalled (ex_at ex_recalled) (ex_fr ex_recalled) /\ play ex_mem ex_nested (ex_at ex_nested) (ex_fr ex_nested) /\ length (ex_fr (ex_nested ++ [ECall 1000 0 2 8])) = 2.
Proof. split; [apply ex_plays; vm_compute; reflexivity|]. split; [apply ex_plays; vm_compute; reflexivity|vm_compute; reflexivity]. Qed.

(** ** C22 Trampolines *)
(** If the original vtable entry is odd, a trampoline is allocated for it.  A
    handler removes the last hook: the trampoline is released when the call ends
    (the clean-up task hangs on the context).  But the slot of the context stack
    keeps the pointer to the task, make_next() does not reset it, and the end of
    the next call that uses the slot deletes the task again. *)
Definition ex_odd : state := init ex_pfs (fun a => 2 * a + 1)%Z (fun _ => 5000%Z).
Definition ex_thunk : list event := [EAddHook 1 ANormal 1000 0 100 41 false; ECall 1000 0 2 7; ERemoveById 1; EReturn 0; EReturn 3].
Definition ex_thunk2 : list event := [EAddHook 1 ANormal 1000 0 100 41 false; ECall 1000 0 2 7; EReturn 0].
(** The history [l] keeps to the rules of C21 (for even entries it is defined:
    C21_defined), but with odd entries it is not defined. *)
Theorem C22_refuted : ~ (forall pfs mem mem' vt l s A, (forall f i, pfs f = Some i -> proto_wf (pf_proto i)) -> (forall a, Z.odd (mem' a) = false) ->
  tracks (init pfs mem' vt) [] l s A -> run (init pfs mem vt) l <> UB).
Proof.
  intros H. pose (l := ex_thunk ++ ex_thunk2 ++ [EReturn 3]).
  assert (T : tracks (init ex_pfs ex_mem (fun _ => 5000%Z)) [] l (ex_at l) (ex_fr l)) by (apply (ex_tracks [] l); vm_compute; reflexivity).
  apply (H ex_pfs (fun a => 2 * a + 1)%Z ex_mem (fun _ => 5000%Z) l _ _ ex_pfs_wf ex_even T). vm_compute. reflexivity.
Qed.
Print Assumptions C22_refuted.
Example C22_ex :
  match run ex_odd ex_thunk with Ok s => In (OThunkFree 1) (h_tr (s_h s)) /\ h_thunks (s_h s) = [] /\ s_fr s = [] | _ => False end /\
  run ex_odd (ex_thunk ++ ex_thunk2 ++ [EReturn 3]) = UB /\ ex_fine (ex_thunk ++ ex_thunk2 ++ [EReturn 3]) = true.
Proof. split; [vm_compute; tauto|]. split; vm_compute; reflexivity. Qed.
(** What holds in every reachable state (also with odd entries): a trampoline
    that is not released yet belongs either to exactly one hooked function or to
    exactly one clean-up task; those of hooked functions are not released. *)
Theorem C22_live_partial : forall mem s, reachable mem s ->
  NoDup (h_thunks (s_h s)) /\
  (forall v t, In v (h_vfns (s_h s)) -> vf_thunk v = Some t -> In t (h_thunks (s_h s)) /\ ~ In t (map snd (c_tasks (s_k s)))) /\
  (forall t, In t (map snd (c_tasks (s_k s))) -> In t (h_thunks (s_h s))) /\
  (forall t, In t (h_thunks (s_h s)) -> (exists v, In v (h_vfns (s_h s)) /\ vf_thunk v = Some t) \/ In t (map snd (c_tasks (s_k s)))).
Proof.
  intros mem s R. pose proof (wf_t _ _ (g_wf _ _ (reachable_good _ _ R))) as [T1 T2 T3 _ _ _]. change (c_h (s_k s)) with (s_h s) in *.
  assert (V : forall v t, In v (h_vfns (s_h s)) -> vf_thunk v = Some t -> In t (vfn_thunks (s_h s))).
  { intros v t I E. unfold vfn_thunks. apply in_flat_map. exists v. split; [exact I|]. rewrite E. now left. }
  split; [exact T3|]. split; [|split].
  - intros v t I E. specialize (V v t I E). split; [apply T2; apply in_app_iff; now left|]. intros J. revert T1 V J. generalize (vfn_thunks (s_h s)) (map snd (c_tasks (s_k s))). clear.
    induction l as [|y l IH]; intros l0 N I J; [contradiction|]. cbn [app] in N. apply NoDup_cons_iff in N. destruct I as [->|I]; [apply (proj1 N), in_app_iff; now right|]. exact (IH l0 (proj2 N) I J).
  - intros t I. apply T2. apply in_app_iff. now right.
  - intros t I. apply T2 in I. apply in_app_iff in I. destruct I as [I|I]; [left|now right]. unfold vfn_thunks in I. apply in_flat_map in I. destruct I as (v & Iv & It). exists v. split; [exact Iv|].
    destruct (vf_thunk v); [destruct It as [->|[]]; reflexivity|contradiction].
Qed.
Print Assumptions C22_live_partial.
