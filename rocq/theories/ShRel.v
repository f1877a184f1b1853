(** The relation between the machine of ShRun.v and the activations of
    ShAbs.v, and its preservation by running code. *)
From Coq Require Import List Bool Arith ZArith Lia Sorted.
From Verif Require Import ProtoModel ShModel ShRun ShLists ShInv ShMan ShHooks ShAdd ShRem ShHist ShSpec ShView ShAbs ShFrames.
Import ListNotations.
Local Open Scope nat_scope.

Definition is_rec (a : after) : bool := match a with ARecall => true | _ => false end.
Definition ids (fr : list frame) : list nat := map f_id fr.
(** The activation on top and those it continues (by recalls). *)
Fixpoint chain (fr : list frame) : list nat :=
  match fr with
  | f :: fr' => match f_hook f with
                | Some _ => f_id f :: (if is_rec (f_after f) then chain fr' else [])
                | None => []
                end
  | [] => []
  end.
Definition chain_of (fid : nat) (aft : after) (fr : list frame) : list nat :=
  fid :: (if is_rec aft then chain fr else []).

Lemma chain_in : forall fr g, In g (chain fr) -> In g (ids fr).
Proof.
  induction fr as [|f fr IH]; intros g H; cbn [chain ids map] in *; [exact H|]. destruct (f_hook f); [|contradiction].
  destruct H as [H|H]; [left; exact H|right]. destruct (is_rec (f_after f)); [apply IH; exact H|contradiction].
Qed.

(** *** Position in the loop *)
Definition iter_ok (v : vfn) (c : ctx) (a : ahook) (post vp : bool) (n : nat) : Prop :=
  if vp then forall i, find_iface v 0 = Some i -> at_iter n i post (cx_iter c)
  else (a_seen a = false -> find_iface v (a_this a) = None) /\
       forall i, find_iface v (a_this a) = Some i -> at_iter n i post (cx_iter c).
Definition loop_ok (v : vfn) (c : ctx) (a : ahook) : Prop :=
  match a_phase a, a_run a with
  | PPre, Some (vp, n) => cx_state c = run_state false vp /\ iter_ok v c a false vp n
  | POrig, None => cx_state c = SOrigCall
  | PPost, Some (vp, n) => cx_state c = run_state true vp /\ iter_ok v c a true vp n
  | _, _ => False
  end.

Lemma iter_pos : forall v c a post vp n, cx_state c = run_state post vp -> iter_ok v c a post vp n -> pos_ok v c a post (Some (vp, n)).
Proof.
  intros v c a post [|] n S I; cbn [pos_ok run_state iter_ok] in *.
  - split; [left; exact S|exact I].
  - destruct I as [_ I]. split; [left; exact S|]. intros _. exact I.
Qed.

(** *** Values *)
Definition meta_eq (v v' : vars) : Prop := v_status v = v_status v' /\ v_prev v = v_prev v' /\ v_cur v = v_cur v'.
Definition ov_ok (vs : list (nat * vars)) (c : ctx) (v : vars) : Prop :=
  meta_ge (v_status v) MOverride = true -> rd vs (cx_over c) = Some (v_vret v).
Definition or_ok (vs : list (nat * vars)) (c : ctx) (v : vars) : Prop :=
  meta_ge (v_status v) MOverride = false -> rd vs (cx_orig c) = Some (v_oret v).
Definition ptr_in (ch : list nat) (p : option retptr) : Prop := match p with Some (RP g _) => In g ch | None => True end.

(** Context and variables of an activation, wherever it is in its loop *)
Record fcore (h : hs) (vs : list (nat * vars)) (ch : list nat) (fid : nat) (c : ctx) (a : ahook) : Prop := {
  fc_call : cx_call_orig c = a_callorig a;
  fc_orig : ptr_in ch (cx_orig c);
  fc_own : a_callorig a = true -> cx_orig c = Some (RP fid true);
  fc_over : ptr_in ch (cx_over c) /\ cx_over c <> Some (RP fid true);
  fc_frame : a_alive a = true \/ a_run a <> None -> cx_frame c = Some fid /\ cx_over c <> None;
  fc_vars : exists v, lk vs fid = Some v /\ meta_eq v (a_v a);
  fc_live : if a_alive a then exists v, live h v c a else cx_state c = SDead }.

(** The parts of the control information that stay the same *)
Record hstat (hi : hinfo) (a : ahook) (d : nat) : Prop := {
  ht_this : hi_this hi = a_this a; ht_slot : hi_slot hi = a_slot a; ht_param : hi_param hi = a_param a;
  ht_addr : hi_addr hi = Some (a_addr a); ht_ctx : hi_ctx hi = d }.

(** An activation between events; [susp]: it is waiting for a recall to end *)
Record fok (h : hs) (vs : list (nat * vars)) (susp : bool) (ch : list nat) (fid : nat) (hi : hinfo) (c : ctx) (a : ahook) (d : nat) : Prop := {
  fo_stat : hstat hi a d;
  fo_phase : hi_phase hi = a_phase a;
  fo_run : hi_run hi = option_map snd (a_run a);
  fo_wf : a_run a = None <-> a_phase a = POrig;
  fo_co : a_phase a <> PPost -> a_callorig a = true;
  fo_ifp : a_run a <> None -> cx_ifp c = Some (a_ifp a);
  fo_core : fcore h vs ch fid c a;
  fo_loop : a_alive a = true -> forall v, live h v c a -> loop_ok v c a;
  fo_n : forall vp n, a_run a = Some (vp, n) -> n < h_nxt h;
  fo_susp : susp = true -> a_alive a = false /\ a_run a <> None;
  fo_vals : susp = false -> ov_ok vs c (a_v a) /\ (a_phase a = PPost -> or_ok vs c (a_v a)) }.

Inductive rel (h : hs) (vs : list (nat * vars)) : bool -> list frame -> list ctx -> list aframe -> Prop :=
| rel_nil : rel h vs false [] [] []
| rel_nat : forall fid aft fr cs A, rel h vs false fr cs A -> is_rec aft = false ->
    rel h vs false (Frame fid aft None :: fr) cs (AFrame fid aft false None :: A)
| rel_ign : forall fid fr c cs A, rel h vs false fr cs A -> cx_state c = SIgnore -> cx_over c = None -> cx_vfn c = None ->
    rel h vs false (Frame fid AReset None :: fr) (c :: cs) (AFrame fid AReset true None :: A)
| rel_hook : forall susp fid aft hi fr c cs a A, rel h vs (is_rec aft) fr cs A ->
    fok h vs susp (chain_of fid aft fr) fid hi c a (length cs) ->
    rel h vs susp (Frame fid aft (Some hi) :: fr) (c :: cs) (AFrame fid aft false (Some a) :: A).

Lemma rel_depth : forall h vs susp fr cs A, rel h vs susp fr cs A -> depth A = length cs.
Proof. intros h vs susp fr cs A R. induction R; cbn [depth af_hook af_ign length]; lia. Qed.

Lemma rel_chain_vars : forall h vs susp fr cs A g, rel h vs susp fr cs A -> In g (chain fr) -> lk vs g <> None.
Proof.
  intros h vs susp fr cs A g R. induction R as [| | |susp fid aft hi fr c cs a A R IH F]; cbn [chain f_hook f_id f_after]; try contradiction.
  intros [<-|H].
  - destruct (fc_vars _ _ _ _ _ _ (fo_core _ _ _ _ _ _ _ _ _ F)) as (v & E & _). congruence.
  - destruct (is_rec aft); [auto|contradiction].
Qed.

(** *** Changes that keep the relation *)
Lemma fcore_vars : forall h vs vs' ch fid c a, fcore h vs ch fid c a -> meta_same (lk vs fid) (lk vs' fid) -> fcore h vs' ch fid c a.
Proof.
  intros h vs vs' ch fid c a [C1 C2 C3 C4 C5 (v & E & M) C7] S. constructor; auto.
  rewrite E in S. destruct (lk vs' fid) as [v'|]; [|contradiction]. exists v'. split; [reflexivity|].
  unfold meta_eq in *. cbn in S. intuition congruence.
Qed.
Lemma rd_same : forall vs vs' ch p, (forall g, In g ch -> lk vs' g = lk vs g) -> ptr_in ch p -> rd vs' p = rd vs p.
Proof. intros vs vs' ch [[g o]|] H P; [|reflexivity]. cbn in *. rewrite H by exact P. reflexivity. Qed.

Lemma fok_vars : forall h vs vs' susp ch fid hi c a d, fok h vs susp ch fid hi c a d ->
  meta_same (lk vs fid) (lk vs' fid) -> (susp = false -> forall g, In g ch -> lk vs' g = lk vs g) -> fok h vs' susp ch fid hi c a d.
Proof.
  intros h vs vs' susp ch fid hi c a d F S E. destruct F as [F1 F2 F3 F4 F5 F6 F7 F8 Fn F9 F10]. constructor; auto.
  - apply (fcore_vars h vs); auto.
  - intros Es. specialize (F10 Es). specialize (E Es). destruct F10 as [V1 V2]. split.
    + intros G. rewrite (rd_same vs vs' ch); auto. apply (proj1 (fc_over _ _ _ _ _ _ F7)).
    + intros P G. rewrite (rd_same vs vs' ch); auto. apply V2; auto. apply (fc_orig _ _ _ _ _ _ F7).
Qed.

Lemma rel_vars : forall h vs vs' susp fr cs A, rel h vs susp fr cs A -> NoDup (ids fr) ->
  (forall g, In g (ids fr) -> meta_same (lk vs g) (lk vs' g)) ->
  (forall g, In g (ids fr) -> (susp = true -> ~ In g (chain fr)) -> lk vs' g = lk vs g) ->
  rel h vs' susp fr cs A.
Proof.
  intros h vs vs' susp fr cs A R. induction R as [|fid aft fr cs A R IH Na|fid fr c cs A R IH Es Eo Ev|susp fid aft hi fr c cs a A R IH F]; intros Nd M E.
  - constructor.
  - cbn [ids map f_id] in *. inversion Nd; subst. constructor; auto. apply IH; auto.
    + intros g Hg. apply M. right. exact Hg.
    + intros g Hg _. apply E; [right; exact Hg|discriminate].
  - cbn [ids map f_id] in *. inversion Nd; subst. constructor; auto. apply IH; auto.
    + intros g Hg. apply M. right. exact Hg.
    + intros g Hg _. apply E; [right; exact Hg|discriminate].
  - cbn [ids map f_id] in *. inversion Nd as [|x y Nx Nd']; subst. constructor.
    + apply IH; auto.
      * intros g Hg. apply M. right. exact Hg.
      * intros g Hg Hc. apply E; [right; exact Hg|]. intros Es Hin. cbn [chain f_hook f_id f_after] in Hin.
        destruct Hin as [<-|Hin]; [contradiction|]. destruct (is_rec aft); [|contradiction]. apply Hc; auto.
    + apply (fok_vars h vs); auto.
      * apply M. left. reflexivity.
      * intros Es g Hg. apply E.
        -- destruct Hg as [<-|Hg]; [left; reflexivity|right]. destruct (is_rec aft); [apply chain_in; exact Hg|contradiction].
        -- intros C. congruence.
Qed.

(** What the code of the activation on top may change leaves those below alone. *)
Lemma rel_below : forall h vs vs' fid aft fr cs A, rel h vs (is_rec aft) fr cs A -> NoDup (ids fr) -> ~ In fid (ids fr) ->
  vmod fid (chain_of fid aft fr) vs vs' -> rel h vs' (is_rec aft) fr cs A.
Proof.
  intros h vs vs' fid aft fr cs A R Nd Nf [V1 V2]. apply (rel_vars h vs); auto.
  - intros g Hg. apply V2. intros ->. contradiction.
  - intros g Hg Hc. apply V1. intros [->|Hin]; [contradiction|]. destruct (is_rec aft); [|contradiction]. apply Hc; auto.
Qed.

(** *** State of a running activation *)
Record env0 (h : hs) (t0 : list obs) (w : world) (b : base) (aft : after) (fr : list frame) (cs : list ctx) (A : list aframe) : Prop := {
  ev_h : b_h b = set_tr h (w_obs w ++ t0);
  ev_pend : b_pend b = w_pend w;
  ev_cs : cs_ok (b_cs b);
  ev_below : rel h (b_vars b) (is_rec aft) fr cs A;
  ev_nd : NoDup (ids fr) }.
Record env (h : hs) (t0 : list obs) (w : world) (b : base) (fid : nat) (aft : after) (fr : list frame) (c : ctx) (cs : list ctx) (A : list aframe) : Prop := {
  en_0 : env0 h t0 w b aft fr cs A;
  en_stk : stk (b_cs b) = c :: cs;
  en_fid : ~ In fid (ids fr) }.

(** The result of running an activation *)
Definition out_ok (h : hs) (t0 : list obs) (fid : nat) (aft : after) (fr : list frame) (cs : list ctx) (A : list aframe)
  (o : option outcome) (ao : aout) : Prop :=
  match ao with
  | AStop a w => exists b hi c, o = Some (Stop b hi) /\ env h t0 w b fid aft fr c cs A /\
      fok h (b_vars b) false (chain_of fid aft fr) fid hi c a (length cs)
  | AFin z w => exists b, o = Some (Fin b z) /\ env0 h t0 w b aft fr cs A /\ stk (b_cs b) = cs
  end.

Lemma ctx_task : forall b c cs, cs_ok (b_cs b) -> stk (b_cs b) = c :: cs -> cx_task c = None.
Proof.
  intros b c cs O E. destruct (stk_cons _ _ _ O E) as (_ & At & _). destruct O as [_ O]. rewrite Forall_forall in O.
  apply O. apply (nth_error_In _ _ At).
Qed.

(** update of own variables *)
Lemma env0_own : forall h t0 w b fid aft fr cs A f, env0 h t0 w b aft fr cs A -> ~ In fid (ids fr) -> env0 h t0 w (upd_vars b fid f) aft fr cs A.
Proof.
  intros h t0 w b fid aft fr cs A f [E1 E2 E3 E4 E5] Nf. constructor; auto. cbn [upd_vars set_vars b_vars].
  apply (rel_below h (b_vars b) _ fid); auto. apply vmod_upd. left. reflexivity.
Qed.
Lemma env0_emit : forall h t0 w b aft fr cs A o, env0 h t0 w b aft fr cs A -> env0 h t0 (wemit o w) (bemit b o) aft fr cs A.
Proof.
  intros h t0 w b aft fr cs A o [E1 E2 E3 E4 E5]. constructor; auto.
  unfold bemit, emit. cbn [set_h set_k b_h b_k c_h]. change (c_h (b_k b)) with (b_h b). rewrite E1. reflexivity.
Qed.
Lemma env0_cs : forall h t0 w b aft fr cs A c, env0 h t0 w b aft fr cs A -> cs_ok c -> env0 h t0 w (set_cs b c) aft fr cs A.
Proof. intros h t0 w b aft fr cs A c [E1 E2 E3 E4 E5] O. constructor; auto. Qed.

Lemma own_meta : forall vs fid f v v0, lk vs fid = Some v0 -> meta_eq v0 v ->
  (forall x y, meta_eq x y -> meta_eq (f x) (f y)) ->
  exists v', lk (upd_first (var_is fid) (fun p => (fst p, f (snd p))) vs) fid = Some v' /\ meta_eq v' (f v).
Proof.
  intros vs fid f v v0 E M H. rewrite lk_upd, Nat.eqb_refl, E. cbn. exists (f v0). split; [reflexivity|]. apply H. exact M.
Qed.
Lemma rd_upd : forall vs fid f p, (forall v, v_oret (f v) = v_oret v /\ v_vret (f v) = v_vret v) ->
  rd (upd_first (var_is fid) (fun p => (fst p, f (snd p))) vs) p = rd vs p.
Proof.
  intros vs fid f [[g o]|] H; [|reflexivity]. cbn [rd]. rewrite lk_upd. destruct (g =? fid); [|reflexivity].
  destruct (lk vs g) as [v|]; [|reflexivity]. cbn. destruct (H v) as [-> ->]. reflexivity.
Qed.
Lemma fcore_keeps : forall h vs ch fid c c' a, fcore h vs ch fid c a -> ctx_keeps c c' ->
  (a_alive a = false -> cx_state c' = cx_state c) -> fcore h vs ch fid c' a.
Proof.
  intros h vs ch fid c c' a [C1 C2 C3 C4 C5 C6 C7] (K1 & K2 & K3 & K4 & K5 & K6 & K7 & K8) S. constructor.
  - congruence.
  - rewrite K5. exact C2.
  - intros H. rewrite K5. auto.
  - rewrite K6. exact C4.
  - intros H. rewrite K3, K6. auto.
  - exact C6.
  - destruct (a_alive a).
    + destruct C7 as (v & [L1 L2 L3 L4 L5]). exists v. constructor; try congruence. rewrite K2. exact L5.
    + rewrite S; auto.
Qed.
Lemma fcore_with : forall h vs vs' ch fid c a v', fcore h vs ch fid c a -> (exists v, lk vs' fid = Some v /\ meta_eq v v') ->
  forall z p r, (a_alive a = true \/ a_run a <> None \/ r = None) -> fcore h vs' ch fid c (a_go z p r v' a).
Proof.
  intros h vs vs' ch fid c a v' [C1 C2 C3 C4 C5 C6 C7] E z p r Hr. constructor; cbn [a_go a_callorig a_alive a_run a_v]; auto.
  - intros [H|H]; apply C5; [left; exact H|]. destruct Hr as [Hr|[Hr|Hr]]; [left; exact Hr|right; exact Hr|contradiction].
  - destruct (a_alive a); [|exact C7]. destruct C7 as (v & [L1 L2 L3 L4 L5]). exists v. constructor; auto.
Qed.

(** ** GetNext and the call of a handler *)
Lemma in_todo : forall h a post from vp k, In (vp, k) (todo h a post from) ->
  a_alive a = true /\ In k (installed h (a_slot a) (if vp then 0%Z else a_this a) post) /\ (vp = false -> a_seen a = true).
Proof.
  intros h a post from vp k H. unfold todo in H. destruct (a_alive a); [|contradiction]. split; [reflexivity|].
  assert (A : forall b l, In (vp, k) (map (pair b) l) -> vp = b /\ In k l).
  { intros b l Hin. apply in_map_iff in Hin. destruct Hin as (x & E & Hx). injection E as -> ->. auto. }
  destruct from as [[[|] n]|].
  - apply A in H. destruct H as [-> H]. apply filter_In in H. destruct H. split; [auto|discriminate].
  - apply in_app_or in H. destruct H as [H|H]; apply A in H; destruct H as [-> H].
    + destruct (a_seen a); apply filter_In in H; destruct H; [auto|contradiction].
    + split; [auto|discriminate].
  - apply in_app_or in H. destruct H as [H|H]; apply A in H; destruct H as [-> H].
    + destruct (a_seen a); [auto|contradiction].
    + split; [auto|discriminate].
Qed.
Lemma next_in_todo : forall h a post from x, next h a post from = Some x -> In x (todo h a post from) /\ hk_paused (snd x) = false.
Proof. intros h a post from x E. apply find_some in E. destruct E as [E1 E2]. split; auto. apply negb_true_iff. exact E2. Qed.
Lemma next_fresh : forall h a post from x, WH h -> next h a post from = Some x -> hk_nid (snd x) < h_nxt h.
Proof.
  intros h a post from [vp k] W E. destruct (next_in_todo _ _ _ _ _ E) as [H _]. destruct (in_todo _ _ _ _ _ _ H) as (_ & Hk & _).
  apply (wh_fresh_n h W). apply (installed_deleg h _ _ _ k W Hk).
Qed.
Lemma next_dead : forall h a post from, a_alive a = false -> next h a post from = None.
Proof. intros h a post from E. unfold next, todo. rewrite E. reflexivity. Qed.

Lemma chosen_loop : forall h v c a post (vp : bool) k n, WH h -> live h v c a -> hk_nid k = n ->
  In k (installed h (a_slot a) (if vp then 0%Z else a_this a) post) -> (vp = false -> a_seen a = true) ->
  cx_iter c = INode n -> iter_ok v c a post vp n.
Proof.
  intros h v c a post vp k n W L En Hk Hs Ei. pose proof (lv_in _ _ _ _ L) as Hv. pose proof (lv_ptr _ _ _ _ L) as Ep.
  assert (At : forall p i, In k (installed h (a_slot a) p post) -> find_iface v p = Some i -> at_iter n i post (cx_iter c)).
  { intros p i Hin Fi. rewrite <- Ep, (find_iface_installed h v p W Hv post), Fi in Hin. unfold at_iter. rewrite Ei. cbn [adv].
    pose proof (proj1 (find_iface_spec h v p i W Hv) Fi) as [Hi _].
    apply after_node_sorted; [apply (wh_sorted h W v i post Hv Hi)|]. rewrite <- En. apply in_map. exact Hin. }
  unfold iter_ok. destruct vp.
  - intros i Fi. apply (At 0%Z); auto.
  - split; [intros S; rewrite (Hs eq_refl) in S; discriminate|]. intros i Fi. apply (At (a_this a)); auto.
Qed.

Lemma call_next_spec : forall h t0 w b fid aft fr c cs A hi a post from (p : phase),
  WH h -> env h t0 w b fid aft fr c cs A -> hstat hi a (length cs) -> fcore h (b_vars b) (chain_of fid aft fr) fid c a ->
  (a_alive a = true -> exists v, live h v c a /\ pos_ok v c a post from) -> p = (if post then PPost else PPre) ->
  match next h a post from with
  | Some x => exists b' c' a', call_next b fid hi = Some (b', Some (snd x)) /\
      env h t0 (wemit (OHandler fid (hk_nid (snd x)) (hk_handler (snd x)) (a_this a - hk_offs (snd x)) (a_param a)) w) b' fid aft fr c' cs A /\
      a' = a_go (a_this a - hk_offs (snd x)) p (Some (fst x, hk_nid (snd x))) (vs_cur MIgnored (a_v a)) a /\ ctx_keeps c c' /\
      fcore h (b_vars b') (chain_of fid aft fr) fid c' a' /\
      cx_ifp c' = Some (a_ifp a') /\ (forall v, live h v c' a' -> loop_ok v c' a') /\
      (forall q, rd (b_vars b') q = rd (b_vars b) q)
  | None => exists b' c', call_next b fid hi = Some (b', None) /\ env h t0 w b' fid aft fr c' cs A /\
      b_vars b' = b_vars b /\ ctx_keeps c c' /\ fcore h (b_vars b') (chain_of fid aft fr) fid c' a /\
      (a_alive a = true -> cx_state c' = (if post then SDead else SOrigCall)) /\ (a_alive a = false -> c' = c)
  end.
Proof.
  intros h t0 w b fid aft fr c cs A hi a post from p W [E0 Es Ef] St F Pos Ep.
  pose proof (ctx_task b c cs (ev_cs _ _ _ _ _ _ _ _ E0) Es) as Tc.
  destruct (stk_cons _ _ _ (ev_cs _ _ _ _ _ _ _ _ E0) Es) as (_ & At & _).
  assert (Gn : forall c0, get_next (b_h b) c0 = get_next h c0). { intros c0. rewrite (ev_h _ _ _ _ _ _ _ _ E0). reflexivity. }
  unfold call_next. rewrite (ht_ctx _ _ _ St), At, Gn.
  destruct (a_alive a) eqn:Al.
  - destruct (Pos eq_refl) as (v & L & Po). pose proof (get_next_spec h v c a post from W L Al Po) as N.
    destruct (next h a post from) as [[vp k]|] eqn:En.
    + destruct N as (c' & Eg & (K & Sc & Ic & Pc)). rewrite Eg. cbn [fst snd].
      destruct (next_in_todo _ _ _ _ _ En) as [Ht _]. destruct (in_todo _ _ _ _ _ _ Ht) as (_ & Hk & Hs).
      assert (Dm : memb (hk_nid k) (h_delegs (b_h b)) = true).
      { rewrite (ev_h _ _ _ _ _ _ _ _ E0). apply memb_in. apply (installed_deleg h _ _ _ k W Hk). }
      rewrite Dm, Pc, (ht_param _ _ _ St).
      assert (Tc' : cx_task c' = None). { destruct K as (_&_&_&_&_&_&_&K8). congruence. }
      destruct (stk_set _ _ _ c' (ev_cs _ _ _ _ _ _ _ _ E0) Es Tc') as [O' S'].
      set (a' := a_go (a_this a - hk_offs k) p (Some (vp, hk_nid k)) (vs_cur MIgnored (a_v a)) a).
      assert (F' : fcore h (b_vars (upd_vars (set_cs b (cs_set (b_cs b) (length cs) c')) fid (vs_cur MIgnored))) (chain_of fid aft fr) fid c' a').
      { pose proof (fcore_keeps _ _ _ _ c c' a F K) as F1. specialize (F1 ltac:(intros C; congruence)).
        apply (fcore_with h (b_vars b)); auto.
        destruct (fc_vars _ _ _ _ _ _ F) as (v0 & E1 & E2).
        apply (own_meta (b_vars b) fid (vs_cur MIgnored) (a_v a) v0 E1 E2). intros x y (M1 & M2 & M3). repeat split; auto. }
      eexists. exists c', a'. split; [reflexivity|]. split; [|split; [reflexivity|split; [exact K|split; [exact F'|split; [eauto|split]]]]].
      * constructor; [|cbn; exact S'|exact Ef]. apply env0_emit. apply env0_own; [|exact Ef]. apply env0_cs; [exact E0|exact O'].
      * intros v' L'. unfold loop_ok, a'. cbn [a_at a_go a_ifp a_phase a_run]. rewrite Ep.
        assert (Io : iter_ok v' c' a' post vp (hk_nid k)).
        { apply (chosen_loop h v' c' a' post vp k); auto. }
        destruct post; split; auto.
      * intros q. cbn [upd_vars set_vars b_vars set_cs set_k bemit set_h]. apply rd_upd. intros; split; reflexivity.
    + destruct N as (c' & Eg & K & Sc). rewrite Eg.
      assert (Tc' : cx_task c' = None). { destruct K as (_&_&_&_&_&_&_&K8). congruence. }
      destruct (stk_set _ _ _ c' (ev_cs _ _ _ _ _ _ _ _ E0) Es Tc') as [O' S'].
      eexists. exists c'. split; [reflexivity|]. split; [|split; [reflexivity|split; [exact K|split; [|split]]]].
      * constructor; [|cbn; exact S'|exact Ef]. apply env0_cs; [exact E0|exact O'].
      * apply (fcore_keeps _ _ _ _ c c' a F K). intros C; congruence.
      * intros _. exact Sc.
      * intros C. congruence.
  - rewrite (next_dead _ _ _ _ Al). pose proof (fc_live _ _ _ _ _ _ F) as Dd. rewrite Al in Dd.
    assert (Eg : get_next h c = Some (c, None)). { unfold get_next. rewrite Dd. reflexivity. }
    rewrite Eg. destruct (stk_set _ _ _ c (ev_cs _ _ _ _ _ _ _ _ E0) Es Tc) as [O' S'].
    eexists. exists c. split; [reflexivity|]. split; [|split; [reflexivity|split; [repeat split|split; [exact F|split]]]].
    + constructor; [|cbn; exact S'|exact Ef]. apply env0_cs; [exact E0|exact O'].
    + intros C; congruence.
    + reflexivity.
Qed.

(** ** The end of an activation *)
Lemma end_context_spec : forall h t0 w b aft fr c cs A, env0 h t0 w b aft fr cs A -> stk (b_cs b) = c :: cs ->
  exists b1, end_context b = Some b1 /\ env0 h t0 (close (length cs) w) b1 aft fr cs A /\ stk (b_cs b1) = cs /\ b_vars b1 = b_vars b.
Proof.
  intros h t0 w b aft fr c cs A E0 Es. pose proof (ev_cs _ _ _ _ _ _ _ _ E0) as O.
  pose proof (ctx_task b c cs O Es) as Tc. unfold end_context. rewrite (stk_front _ O), Es. cbn [hd_error]. rewrite Tc.
  destruct (stk_pop _ _ _ O Es) as [O' S']. destruct (stk_cons _ _ _ O Es) as (Dp & _ & _).
  set (b1 := set_k b (Core (c_h (b_k b)) (Cs (cs_slots (c_cs (b_k b))) (cs_depth (c_cs (b_k b)) - 1)) (c_tasks (b_k b)))).
  assert (E1 : env0 h t0 w b1 aft fr cs A). { destruct E0. constructor; auto. }
  assert (D1 : cs_depth (b_cs b1) = length cs). { unfold b1. cbn [set_k b_cs b_k c_cs cs_depth]. change (c_cs (b_k b)) with (b_cs b). lia. }
  change (b_pend b1) with (b_pend b). rewrite D1. unfold close.
  destruct (length cs =? 0) eqn:L0; cbn [andb].
  - destruct (length (b_pend b) =? 0) eqn:P0; cbn [negb].
    + exists b1. split; [reflexivity|]. split; [|split; [exact S'|reflexivity]].
      apply Nat.eqb_eq in P0. destruct (b_pend b) as [|x l] eqn:Eb; [|discriminate].
      pose proof (ev_pend _ _ _ _ _ _ _ _ E0) as Ep. rewrite Eb in Ep. destruct w as [wp wo]. cbn [w_pend w_obs] in *. subst wp. cbn. exact E1.
    + exists (do_resolve b1). split; [reflexivity|]. unfold do_resolve. change (b_pend b1) with (b_pend b).
      rewrite <- (ev_pend _ _ _ _ _ _ _ _ E0). destruct (resolve_pending (b_pend b)) as [r o].
      split; [|split; [exact S'|reflexivity]].
      destruct E0 as [H1 H2 H3 H4 H5]. constructor; auto.
      change (b_h (set_pend (set_h b1 (set_tr (b_h b1) (rev o ++ h_tr (b_h b1)))) r)) with (set_tr (b_h b) (rev o ++ h_tr (b_h b))).
      rewrite H1. cbn [w_obs]. rewrite <- app_assoc. reflexivity.
  - exists b1. split; [reflexivity|]. auto.
Qed.

Lemma finish_spec : forall h t0 w b fid aft fr c cs A hi a,
  env h t0 w b fid aft fr c cs A -> hstat hi a (length cs) -> fcore h (b_vars b) (chain_of fid aft fr) fid c a ->
  ov_ok (b_vars b) c (a_v a) -> or_ok (b_vars b) c (a_v a) ->
  exists b', finish b fid hi = Some (Fin b' (a_value (a_v a))) /\
    env0 h t0 (wemit (OEnd fid (a_value (a_v a))) (close (length cs) w)) b' aft fr cs A /\ stk (b_cs b') = cs.
Proof.
  intros h t0 w b fid aft fr c cs A hi a [E0 Es Ef] St F Ov Or.
  pose proof (ev_cs _ _ _ _ _ _ _ _ E0) as O. destruct (stk_cons _ _ _ O Es) as (_ & At & _).
  destruct (fc_vars _ _ _ _ _ _ F) as (v & Ev & (M1 & M2 & M3)).
  unfold finish. rewrite get_vars_lk, Ev, (ht_ctx _ _ _ St), At, M1.
  destruct (end_context_spec _ _ _ _ _ _ _ _ _ E0 Es) as (b1 & Eb & E1 & S1 & V1). rewrite Eb, read_ret_rd, V1.
  assert (Er : rd (b_vars b) (if meta_ge (v_status (a_v a)) MOverride then cx_over c else cx_orig c) = Some (a_value (a_v a))).
  { unfold a_value. destruct (meta_ge (v_status (a_v a)) MOverride) eqn:G; [apply Ov|apply Or]; exact G. }
  rewrite Er. eexists. split; [reflexivity|]. split; [|exact S1]. apply env0_emit.
  destruct E1 as [H1 H2 H3 H4 H5]. constructor; auto. cbn [set_vars b_vars].
  rewrite V1 in *. apply (rel_below h (b_vars b) _ fid); auto. apply vmod_del. left. reflexivity.
Qed.

Lemma hstat_set : forall hi a d p r, hstat hi a d -> hstat (hi_set p r hi) a d.
Proof. intros hi a d p r [H1 H2 H3 H4 H5]. constructor; auto. Qed.
Lemma hstat_ext : forall hi a a' d, hstat hi a d -> a_this a' = a_this a -> a_slot a' = a_slot a -> a_param a' = a_param a ->
  a_addr a' = a_addr a -> hstat hi a' d.
Proof. intros hi a a' d [H1 H2 H3 H4 H5] E1 E2 E3 E4. constructor; congruence. Qed.
Lemma vals_keep : forall vs vs' c c' v v', ov_ok vs c v -> cx_over c' = cx_over c -> v_status v' = v_status v -> v_vret v' = v_vret v ->
  rd vs' (cx_over c) = rd vs (cx_over c) -> ov_ok vs' c' v'.
Proof. unfold ov_ok. intros. rewrite H0, H3, H2. apply H. congruence. Qed.
Lemma vals_keep' : forall vs vs' c c' v v', or_ok vs c v -> cx_orig c' = cx_orig c -> v_status v' = v_status v -> v_oret v' = v_oret v ->
  rd vs' (cx_orig c) = rd vs (cx_orig c) -> or_ok vs' c' v'.
Proof. unfold or_ok. intros. rewrite H0, H3, H2. apply H. congruence. Qed.

(** The call of a handler *)
Lemma started_ok : forall h t0 w b fid aft fr c cs A hi a (p : phase) x,
  p <> POrig -> hk_nid (snd x) < h_nxt h -> (p <> PPost -> a_callorig a = true) -> hstat hi a (length cs) ->
  ov_ok (b_vars b) c (a_v a) -> (p = PPost -> or_ok (b_vars b) c (a_v a)) ->
  (exists b' c' a', call_next b fid hi = Some (b', Some (snd x)) /\
      env h t0 (wemit (OHandler fid (hk_nid (snd x)) (hk_handler (snd x)) (a_this a - hk_offs (snd x)) (a_param a)) w) b' fid aft fr c' cs A /\
      a' = a_go (a_this a - hk_offs (snd x)) p (Some (fst x, hk_nid (snd x))) (vs_cur MIgnored (a_v a)) a /\ ctx_keeps c c' /\
      fcore h (b_vars b') (chain_of fid aft fr) fid c' a' /\
      cx_ifp c' = Some (a_ifp a') /\ (forall v, live h v c' a' -> loop_ok v c' a') /\
      (forall q, rd (b_vars b') q = rd (b_vars b) q)) ->
  exists b', call_next b fid hi = Some (b', Some (snd x)) /\
    out_ok h t0 fid aft fr cs A (Some (Stop b' (hi_set p (Some (hk_nid (snd x))) hi))) (a_start fid a p x w).
Proof.
  intros h t0 w b fid aft fr c cs A hi a p x Np Ln Co St Ov Or (b' & c' & a' & E & En & Ea & K & F & Ip & Lp & Rd).
  exists b'. split; [exact E|]. unfold a_start. rewrite <- Ea. cbn [out_ok]. exists b', (hi_set p (Some (hk_nid (snd x))) hi), c'.
  split; [reflexivity|]. split; [exact En|]. destruct K as (K1 & K2 & K3 & K4 & K5 & K6 & K7 & K8).
  constructor; try (rewrite Ea; cbn [a_at a_go a_ifp a_run a_phase a_alive a_v a_callorig option_map snd fst]; auto; fail); auto.
  - apply hstat_set. rewrite Ea. apply (hstat_ext hi a); auto.
  - rewrite Ea. cbn [a_at a_go a_ifp a_run a_phase]. split; [discriminate|contradiction].
  - rewrite Ea. cbn [a_at a_go a_ifp a_run]. intros vp n E1. injection E1 as _ <-. exact Ln.
  - intros C; discriminate.
  - intros _. rewrite Ea. cbn [a_at a_go a_ifp a_v a_phase]. split; [apply (vals_keep (b_vars b) _ c _ (a_v a)); auto|].
    intros Ep. apply (vals_keep' (b_vars b) _ c _ (a_v a)); auto.
Qed.

Lemma run_post_spec : forall h t0 w b fid aft fr c cs A hi a from, WH h ->
  env h t0 w b fid aft fr c cs A -> hstat hi a (length cs) -> fcore h (b_vars b) (chain_of fid aft fr) fid c a ->
  (a_alive a = true -> exists v, live h v c a /\ pos_ok v c a true from) ->
  ov_ok (b_vars b) c (a_v a) -> or_ok (b_vars b) c (a_v a) ->
  out_ok h t0 fid aft fr cs A (run_post b fid hi) (a_post h fid (length cs) a from w).
Proof.
  intros h t0 w b fid aft fr c cs A hi a from W E St F Pos Ov Or.
  pose proof (call_next_spec h t0 w b fid aft fr c cs A hi a true from PPost W E St F Pos eq_refl) as N.
  unfold run_post, a_post. destruct (next h a true from) as [x|] eqn:Nx.
  - destruct (started_ok h t0 w b fid aft fr c cs A hi a PPost x) as (b' & Ec & Ok); auto; try discriminate; try congruence.
    { apply (next_fresh h _ _ _ _ W Nx). }
    rewrite Ec. exact Ok.
  - destruct N as (b' & c' & Ec & E' & Vb & (K1 & K2 & K3 & K4 & K5 & K6 & K7 & K8) & F' & _ & _). rewrite Ec.
    destruct (finish_spec h t0 w b' fid aft fr c' cs A hi a E' St F') as (b2 & Ef & E2 & S2).
    + unfold ov_ok. rewrite Vb, K6. exact Ov.
    + unfold or_ok. rewrite Vb, K5. exact Or.
    + cbn [out_ok]. exists b2. auto.
Qed.

Lemma lk_self : forall vs fid f v, lk vs fid = Some v -> lk (upd_first (var_is fid) (fun p => (fst p, f (snd p))) vs) fid = Some (f v).
Proof. intros vs fid f v E. rewrite lk_upd, Nat.eqb_refl, E. reflexivity. Qed.

Lemma begin_post_spec : forall h t0 w b fid aft fr c cs A hi a from, WH h ->
  env h t0 w b fid aft fr c cs A -> hstat hi a (length cs) -> fcore h (b_vars b) (chain_of fid aft fr) fid c a ->
  (a_alive a = true -> exists v, live h v c a /\ pos_ok v c a true from) ->
  ov_ok (b_vars b) c (a_v a) -> or_ok (b_vars b) c (a_v a) ->
  out_ok h t0 fid aft fr cs A (begin_post b fid hi) (a_begin_post h fid (length cs) a from w).
Proof.
  intros h t0 w b fid aft fr c cs A hi a from W [E0 Es Ef] St F Pos Ov Or. unfold begin_post, a_begin_post.
  assert (Rd : forall q, rd (b_vars (bemit (upd_vars b fid (vs_prev MIgnored)) (OPost fid))) q = rd (b_vars b) q).
  { intros q. apply rd_upd. intros; split; reflexivity. }
  apply (run_post_spec h t0 (wemit (OPost fid) w) _ fid aft fr c cs A hi _ from W).
  - constructor; auto. apply env0_emit. apply env0_own; auto.
  - apply (hstat_ext hi a); auto.
  - destruct (fc_vars _ _ _ _ _ _ F) as (v & Ev & (M1 & M2 & M3)). destruct F as [F1 F2 F3 F4 F5 F6 F7].
    constructor; cbn [a_with_v a_alive a_callorig a_run a_v]; auto.
    + exists (vs_prev MIgnored v). split; [apply lk_self; exact Ev|]. repeat split; auto.
    + destruct (a_alive a); [|exact F7]. destruct F7 as (x & [L1 L2 L3 L4 L5]). exists x. constructor; auto.
  - cbn [a_with_v a_alive]. intros Al. destruct (Pos Al) as (x & [L1 L2 L3 L4 L5] & Po). exists x. split; [constructor; auto|].
    destruct from as [[[|] n]|]; exact Po.
  - apply (vals_keep (b_vars b) _ c _ (a_v a)); auto.
  - apply (vals_keep' (b_vars b) _ c _ (a_v a)); auto.
Qed.

Lemma rd_upd_oret : forall vs fid z p, p <> Some (RP fid true) ->
  rd (upd_first (var_is fid) (fun q => (fst q, vs_oret z (snd q))) vs) p = rd vs p.
Proof.
  intros vs fid z [[g o]|] N; [|reflexivity]. cbn [rd]. rewrite lk_upd. destruct (Nat.eqb_spec g fid) as [->|]; [|reflexivity].
  destruct (lk vs fid) as [v|]; [|reflexivity]. cbn. destruct o; [congruence|reflexivity].
Qed.
Lemma ge_super : forall m, meta_ge m MSupercede = true -> meta_ge m MOverride = true.
Proof. intros [| | |]; cbn; auto. Qed.

(** SH_CALL_ORIG's value (or the override value) becomes the original's value *)
Lemma after_orig_spec : forall h t0 w b fid aft fr c cs A hi a z (zv : Z) from, WH h ->
  env h t0 w b fid aft fr c cs A -> hstat hi a (length cs) -> fcore h (b_vars b) (chain_of fid aft fr) fid c a ->
  (a_alive a = true -> exists v, live h v c a /\ pos_ok v c a true from) ->
  ov_ok (b_vars b) c (a_v a) ->
  (meta_ge (v_status (a_v a)) MOverride = true /\ zv = v_oret (a_v a) \/ a_callorig a = true /\ zv = z \/
   or_ok (b_vars b) c (a_v a) /\ cx_orig c <> Some (RP fid true) /\ zv = v_oret (a_v a)) ->
  out_ok h t0 fid aft fr cs A (begin_post (upd_vars b fid (vs_oret z)) fid hi)
         (a_begin_post h fid (length cs) (a_with_v (vs_oret zv (a_v a)) a) from w).
Proof.
  intros h t0 w b fid aft fr c cs A hi a z zv from W [E0 Es Ef] St F Pos Ov Cond.
  destruct (fc_vars _ _ _ _ _ _ F) as (v & Ev & (M1 & M2 & M3)).
  apply (begin_post_spec h t0 w _ fid aft fr c cs A hi); auto.
  - constructor; auto. apply env0_own; auto.
  - apply (hstat_ext hi a); auto.
  - destruct F as [F1 F2 F3 F4 F5 F6 F7]. constructor; cbn [a_with_v a_alive a_callorig a_run a_v]; auto.
    + exists (vs_oret z v). split; [apply lk_self; exact Ev|]. repeat split; auto.
    + destruct (a_alive a); [|exact F7]. destruct F7 as (x & [L1 L2 L3 L4 L5]). exists x. constructor; auto.
  - cbn [a_with_v a_alive]. intros Al. destruct (Pos Al) as (x & [L1 L2 L3 L4 L5] & Po). exists x. split; [constructor; auto|].
    destruct from as [[[|] n]|]; exact Po.
  - apply (vals_keep (b_vars b) _ c _ (a_v a)); auto. apply rd_upd_oret. apply (fc_over _ _ _ _ _ _ F).
  - unfold or_ok. cbn [a_with_v a_v vs_oret v_status v_oret]. intros G. destruct Cond as [[C _]|[[C ->]|(C & N & ->)]]; [congruence| |].
    + rewrite (fc_own _ _ _ _ _ _ F C). cbn [rd upd_vars set_vars b_vars]. rewrite (lk_self _ _ _ _ Ev). reflexivity.
    + cbn [upd_vars set_vars b_vars]. rewrite rd_upd_oret by exact N. apply C. exact G.
Qed.

Lemma run_pre_spec : forall h t0 w b fid aft fr c cs A hi a from, WH h ->
  env h t0 w b fid aft fr c cs A -> hstat hi a (length cs) -> fcore h (b_vars b) (chain_of fid aft fr) fid c a ->
  (a_alive a = true -> exists v, live h v c a /\ pos_ok v c a false from) ->
  ov_ok (b_vars b) c (a_v a) -> a_callorig a = true ->
  out_ok h t0 fid aft fr cs A (run_pre b fid hi) (a_pre h fid (length cs) a from w).
Proof.
  intros h t0 w b fid aft fr c cs A hi a from W E St F Pos Ov Co.
  pose proof (call_next_spec h t0 w b fid aft fr c cs A hi a false from PPre W E St F Pos eq_refl) as N.
  unfold run_pre, a_pre. destruct (next h a false from) as [x|] eqn:Nx.
  - destruct (started_ok h t0 w b fid aft fr c cs A hi a PPre x) as (b' & Ec & Ok); auto; try discriminate.
    { apply (next_fresh h _ _ _ _ W Nx). }
    rewrite Ec. exact Ok.
  - destruct N as (b' & c' & Ec & E' & Vb & K & F' & Sa & Sd). rewrite Ec.
    assert (K6 : cx_over c' = cx_over c) by apply K.
    assert (Ov' : ov_ok (b_vars b') c' (a_v a)). { unfold ov_ok. rewrite Vb, K6. exact Ov. }
    pose proof E' as [E0 Es Ef]. destruct (stk_cons _ _ _ (ev_cs _ _ _ _ _ _ _ _ E0) Es) as (_ & At & _).
    destruct (fc_vars _ _ _ _ _ _ F') as (v & Ev & (M1 & M2 & M3)).
    rewrite get_vars_lk, Ev, (ht_ctx _ _ _ St), At, M1, (fc_call _ _ _ _ _ _ F'), Co. rewrite andb_true_r.
    destruct (meta_ge (v_status (a_v a)) MSupercede) eqn:G; cbn [negb].
    + assert (Ea : a_with_v (vs_oret (v_oret (a_v a)) (a_v a)) a = a). { destruct a as [? ? ? ? ? ? ? ? ? [? ? ? ? ?]]. reflexivity. }
      pose proof (after_orig_spec h t0 w b' fid aft fr c' cs A hi a (v_vret v) (v_oret (a_v a)) None W E' St F') as X.
      rewrite Ea in X. apply X; auto.
      * intros Al. destruct (Pos Al) as (x & [L1 L2 L3 L4 L5] & Po). exists x.
        destruct K as (K1 & K2 & K3 & K4 & K5 & K7). split; [constructor; try congruence|].
        -- rewrite K2. exact L5.
        -- cbn. auto.
      * left. split; [apply ge_super; exact G|reflexivity].
    + rewrite (ht_addr _ _ _ St), (ht_this _ _ _ St), (ht_param _ _ _ St). cbn [out_ok].
      eexists _, _, c'. split; [reflexivity|]. split.
      * constructor; auto. apply env0_emit. exact E0.
      * constructor; cbn [a_at a_go a_ifp a_run a_phase a_v a_alive a_callorig hi_set hi_phase hi_run option_map]; auto.
        -- apply hstat_set. apply (hstat_ext hi a); auto.
        -- split; reflexivity.
        -- congruence.
        -- apply (fcore_with h (b_vars b')); auto. exists v. repeat split; auto.
        -- intros Al x _. exact (Sa Al).
        -- discriminate.
        -- discriminate.
        -- intros _. split; [exact Ov'|discriminate].
Qed.

(** ** A handler returns *)
Lemma ge_max : forall a b, meta_ge (meta_max a b) MOverride = meta_ge a MOverride || meta_ge b MOverride.
Proof. intros [| | |] [| | |]; reflexivity. Qed.

Lemma chain_of_vars : forall h t0 w b fid aft fr c cs A a g, env h t0 w b fid aft fr c cs A ->
  fcore h (b_vars b) (chain_of fid aft fr) fid c a -> In g (chain_of fid aft fr) -> lk (b_vars b) g <> None.
Proof.
  intros h t0 w b fid aft fr c cs A a g [E0 _ _] F [<-|H].
  - destruct (fc_vars _ _ _ _ _ _ F) as (v & E & _). congruence.
  - pose proof (ev_below _ _ _ _ _ _ _ _ E0) as R. destruct (is_rec aft); [|contradiction]. apply (rel_chain_vars _ _ _ _ _ _ _ R H).
Qed.

Lemma env_write : forall h t0 w b b' fid aft fr c cs A, env h t0 w b fid aft fr c cs A -> b_k b' = b_k b -> b_pend b' = b_pend b ->
  vmod fid (chain_of fid aft fr) (b_vars b) (b_vars b') -> env h t0 w b' fid aft fr c cs A.
Proof.
  intros h t0 w b b' fid aft fr c cs A [[E1 E2 E3 E4 E5] Es Ef] Ek Ep V. constructor; auto.
  - constructor; auto.
    + unfold b_h. rewrite Ek. exact E1.
    + congruence.
    + unfold b_cs. rewrite Ek. exact E3.
    + apply (rel_below h (b_vars b) _ fid); auto.
  - unfold b_cs. rewrite Ek. exact Es.
Qed.

Lemma handler_done_spec : forall h t0 w b fid aft fr c cs A hi a vp nid z, WH h ->
  env h t0 w b fid aft fr c cs A -> hstat hi a (length cs) -> fcore h (b_vars b) (chain_of fid aft fr) fid c a ->
  hi_phase hi = a_phase a -> a_run a = Some (vp, nid) -> a_phase a <> POrig -> (a_phase a <> PPost -> a_callorig a = true) ->
  (a_alive a = true -> forall v, live h v c a -> loop_ok v c a) ->
  (meta_ge (v_cur (a_v a)) MOverride = false -> ov_ok (b_vars b) c (a_v a) /\ (a_phase a = PPost -> or_ok (b_vars b) c (a_v a))) ->
  out_ok h t0 fid aft fr cs A (handler_done b fid hi nid z) (a_done h fid (length cs) a z w).
Proof.
  intros h t0 w b fid aft fr c cs A hi a vp nid z W E St F Ph Er Np Co Lp Vals.
  pose proof E as [E0 Es Ef]. destruct (stk_cons _ _ _ (ev_cs _ _ _ _ _ _ _ _ E0) Es) as (_ & At & _).
  destruct (fc_vars _ _ _ _ _ _ F) as (v & Ev & (M1 & M2 & M3)).
  unfold handler_done, a_done. rewrite get_vars_lk, Ev, (ht_ctx _ _ _ St), At, M3, Er.
  set (f := fun v0 => vs_status (if meta_gt (v_cur v0) (v_status v0) then v_cur v0 else v_status v0) (vs_prev (v_cur v0) v0)).
  set (b2 := upd_vars (bemit b (OHandlerRet fid nid (v_cur (a_v a)) z)) fid f).
  set (w1 := wemit (OHandlerRet fid nid (v_cur (a_v a)) z) w).
  set (a1 := a_with_v (v_done z (a_v a)) a).
  assert (Ev2 : lk (b_vars b2) fid = Some (f v)). { apply lk_self. exact Ev. }
  assert (Rd2 : forall q, rd (b_vars b2) q = rd (b_vars b) q). { intros q. apply rd_upd. intros; split; reflexivity. }
  assert (E2 : env h t0 w1 b2 fid aft fr c cs A).
  { constructor; auto. apply env0_own; auto. apply env0_emit. exact E0. }
  destruct (fc_frame _ _ _ _ _ _ F) as [_ Nov]. { right. congruence. }
  assert (X : exists b3, (if meta_ge (v_cur (a_v a)) MOverride then write_ret b2 (cx_over c) z else Some b2) = Some b3 /\
    env h t0 w1 b3 fid aft fr c cs A /\ (exists v3, lk (b_vars b3) fid = Some v3 /\ meta_eq v3 (v_done z (a_v a))) /\
    ov_ok (b_vars b3) c (v_done z (a_v a)) /\ (a_phase a = PPost -> or_ok (b_vars b3) c (v_done z (a_v a)))).
  { assert (Mf : meta_eq (f v) (v_done z (a_v a))). { unfold f, meta_eq, v_done, meta_max. cbn. rewrite M1, M3. auto. }
    destruct (meta_ge (v_cur (a_v a)) MOverride) eqn:G.
    - destruct (cx_over c) as [[g o]|] eqn:Eo; [|congruence].
      assert (Hg : In g (chain_of fid aft fr)). { pose proof (proj1 (fc_over _ _ _ _ _ _ F)) as P. rewrite Eo in P. exact P. }
      assert (Lg : lk (b_vars b2) g <> None).
      { pose proof (chain_of_vars _ _ _ _ _ _ _ _ _ _ _ g E F Hg) as N. cbn [b2 upd_vars set_vars b_vars]. rewrite lk_upd.
        change (b_vars (bemit b (OHandlerRet fid nid (v_cur (a_v a)) z))) with (b_vars b).
        destruct (g =? fid); [destruct (lk (b_vars b) g); [discriminate|congruence]|exact N]. }
      destruct (write_spec b2 fid (chain_of fid aft fr) g o z Hg Lg) as (b3 & Ew & Ek & Ep & Vm & Ms & Rr).
      exists b3. split; [exact Ew|]. split; [apply (env_write _ _ _ b2); auto|]. split; [|split].
      + specialize (Ms fid). rewrite Ev2 in Ms. destruct (lk (b_vars b3) fid) as [v3|]; [|contradiction]. exists v3. split; [reflexivity|].
        cbn [meta_same] in Ms. destruct Ms as (S1 & S2 & S3). destruct Mf as (N1 & N2 & N3).
        split; [rewrite S1; exact N1|split; [rewrite S2; exact N2|rewrite S3; exact N3]].
      + intros _. rewrite Eo, Rr. unfold v_done. cbn [v_vret]. rewrite G. reflexivity.
      + intros _ C. unfold v_done in C. cbn [v_status] in C. rewrite ge_max, G in C. discriminate.
    - exists b2. split; [reflexivity|]. split; [exact E2|]. split; [exists (f v); auto|].
      destruct (Vals eq_refl) as [V1 V2]. split.
      + unfold ov_ok, v_done. cbn [v_status v_vret]. rewrite ge_max, G, Rd2. exact V1.
      + intros Ep. unfold or_ok, v_done. cbn [v_status v_oret]. rewrite ge_max, G, Rd2. apply V2. exact Ep. }
  destruct X as (b3 & -> & E3 & Ev3 & Ov3 & Or3).
  assert (F3 : fcore h (b_vars b3) (chain_of fid aft fr) fid c a1).
  { destruct F as [F1 F2 F3 F4 F5 F6 F7]. constructor; auto. unfold a1. cbn [a_with_v a_alive].
    destruct (a_alive a); [|exact F7]. destruct F7 as (x & [L1 L2 L3 L4 L5]). exists x. constructor; auto. }
  assert (St1 : hstat hi a1 (length cs)). { apply (hstat_ext hi a); auto. }
  rewrite Ph. destruct (a_phase a) eqn:Pa; [|congruence|].
  - apply (run_pre_spec h t0 w1 b3 fid aft fr c cs A hi a1); auto.
    + intros Al. pose proof (fc_live _ _ _ _ _ _ F) as Lv. change (a_alive a1) with (a_alive a) in Al. rewrite Al in Lv. destruct Lv as (x & L).
      exists x. destruct L as [L1 L2 L3 L4 L5]. split; [constructor; auto|].
      assert (L : live h x c a) by (constructor; auto). specialize (Lp Al x L). unfold loop_ok in Lp. rewrite Pa, Er in Lp.
      destruct Lp as [P1 P2]. apply iter_pos; auto.
    + apply Co. discriminate.
  - apply (run_post_spec h t0 w1 b3 fid aft fr c cs A hi a1); auto.
    intros Al. pose proof (fc_live _ _ _ _ _ _ F) as Lv. change (a_alive a1) with (a_alive a) in Al. rewrite Al in Lv. destruct Lv as (x & L).
    exists x. destruct L as [L1 L2 L3 L4 L5]. split; [constructor; auto|].
    assert (L : live h x c a) by (constructor; auto). specialize (Lp Al x L). unfold loop_ok in Lp. rewrite Pa, Er in Lp.
    destruct Lp as [P1 P2]. apply iter_pos; auto.
Qed.

(** ** Returning to the caller *)
(** The whole state *)
Record sok (h : hs) (t0 : list obs) (s : state) (x : astate) : Prop := {
  so_h : b_h (s_b s) = set_tr h (w_obs (as_w x) ++ t0);
  so_pend : b_pend (s_b s) = w_pend (as_w x);
  so_cs : cs_ok (b_cs (s_b s));
  so_rel : rel h (b_vars (s_b s)) false (s_fr s) (stk (b_cs (s_b s))) (as_fr x);
  so_nd : NoDup (ids (s_fr s)) }.

Lemma rel_take_ign : forall h vs susp fr cs A, rel h vs susp fr cs A -> susp = false ->
  match take_ign A with
  | None => match cs with c :: _ => cx_state c <> SIgnore | [] => True end
  | Some A1 => exists c cs1, cs = c :: cs1 /\ cx_state c = SIgnore /\ cx_over c = None /\ rel h vs false fr cs1 A1
  end.
Proof.
  intros h vs susp fr cs A R. induction R as [|fid aft fr cs A R IH Na|fid fr c cs A R IH Es Eo Ev|susp fid aft hi fr c cs a A R IH F]; intros Hs;
    cbn [take_ign af_hook af_ign].
  - exact I.
  - specialize (IH eq_refl). destruct (take_ign A) as [A1|]; [|exact IH].
    destruct IH as (c & cs1 & E & S & Ov & R1). exists c, cs1. repeat split; auto. constructor; auto.
  - exists c, cs. repeat split; auto. constructor; auto.
  - intros C. pose proof (fo_core _ _ _ _ _ _ _ _ _ F) as Fc. pose proof (fc_live _ _ _ _ _ _ Fc) as Lv. destruct (a_alive a) eqn:Al; [|congruence].
    destruct Lv as (v & L). pose proof (fo_loop _ _ _ _ _ _ _ _ _ F Al v L) as Lp. unfold loop_ok in Lp.
    destruct (a_phase a), (a_run a) as [[[|] n]|]; cbn [run_state] in Lp; try contradiction; first [congruence|destruct Lp as [Lp _]; congruence].
Qed.

Lemma reset_spec : forall h t0 w b fr cs A, env0 h t0 w b APlain fr cs A -> stk (b_cs b) = cs ->
  exists b1, reset_ignore b = Some b1 /\ sok h t0 (State b1 fr) (a_reset A w).
Proof.
  intros h t0 w b fr cs A E0 Es. pose proof (ev_cs _ _ _ _ _ _ _ _ E0) as O. pose proof (ev_below _ _ _ _ _ _ _ _ E0) as R.
  pose proof (rel_take_ign h _ _ _ _ _ R eq_refl) as T. unfold reset_ignore, a_reset. rewrite (stk_front _ O), Es.
  destruct (take_ign A) as [A1|].
  - destruct T as (c & cs1 & -> & Sc & _ & R1). cbn [hd_error]. rewrite Sc.
    assert (E1 : env0 h t0 w b APlain fr cs1 A1). { destruct E0. constructor; auto. }
    destruct (end_context_spec _ _ _ _ _ _ _ _ _ E1 Es) as (b1 & Eb & E2 & S1 & V1).
    exists b1. split; [exact Eb|]. rewrite (rel_depth _ _ _ _ _ _ R1). destruct E2 as [X1 X2 X3 X4 X5].
    constructor; cbn [s_b s_fr as_w as_fr]; auto. rewrite S1. exact X4.
  - exists b. split.
    + destruct cs as [|c cs]; cbn [hd_error]; [reflexivity|]. destruct (cx_state c); try reflexivity. congruence.
    + destruct E0 as [X1 X2 X3 X4 X5]. constructor; cbn [s_b s_fr as_w as_fr]; auto. rewrite Es. exact X4.
Qed.

Lemma out_stop : forall h t0 fid aft fr cs A o a w, out_ok h t0 fid aft fr cs A o (AStop a w) ->
  exists b hi, o = Some (Stop b hi) /\ sok h t0 (State b (Frame fid aft (Some hi) :: fr)) (AState (AFrame fid aft false (Some a) :: A) w).
Proof.
  intros h t0 fid aft fr cs A o a w (b & hi & c & E & [[E1 E2 E3 E4 E5] Es Ef] & F). exists b, hi. split; [exact E|].
  constructor; cbn [s_b s_fr as_w as_fr]; auto.
  - rewrite Es. constructor; auto.
  - cbn [ids map f_id]. constructor; auto.
Qed.

Lemma unwind_spec : forall h t0 fr w b aft z cs A, WH h -> env0 h t0 w b aft fr cs A -> stk (b_cs b) = cs ->
  exists s, unwind b aft z fr = Some s /\ sok h t0 s (a_unwind h aft z A w).
Proof.
  intros h t0 fr. induction fr as [|f fr IH]; intros w b aft z cs A W E0 Es.
  - destruct aft; cbn [unwind].
    + eexists. split; [reflexivity|]. destruct E0 as [X1 X2 X3 X4 X5]. destruct A; cbn [a_unwind]; constructor; cbn [s_b s_fr as_w as_fr]; auto; rewrite Es; exact X4.
    + destruct (reset_spec h t0 w b [] cs A) as (b1 & Eb & S); auto. { destruct E0. constructor; auto. }
      rewrite Eb. eexists. split; [reflexivity|]. destruct A; exact S.
    + pose proof (ev_below _ _ _ _ _ _ _ _ E0) as R. inversion R.
  - destruct aft; cbn [unwind].
    + eexists. split; [reflexivity|]. destruct E0 as [X1 X2 X3 X4 X5]. destruct A; cbn [a_unwind]; constructor; cbn [s_b s_fr as_w as_fr]; auto; rewrite Es; exact X4.
    + destruct (reset_spec h t0 w b (f :: fr) cs A) as (b1 & Eb & S); auto. { destruct E0. constructor; auto. }
      rewrite Eb. eexists. split; [reflexivity|]. destruct A; exact S.
    + pose proof (ev_below _ _ _ _ _ _ _ _ E0) as R. cbn [is_rec] in R.
      inversion R as [| | |susp fid aft hi fr' c cs' a A' R' F Esu Efr Ecs Ea]; subst. clear R.
      pose proof (ev_nd _ _ _ _ _ _ _ _ E0) as Nd. cbn [ids map f_id] in Nd. inversion Nd as [|x y Nf Nd']; subst.
      destruct (fo_susp _ _ _ _ _ _ _ _ _ F eq_refl) as [Al Rn].
      pose proof (fo_core _ _ _ _ _ _ _ _ _ F) as Fc. destruct (fc_frame _ _ _ _ _ _ Fc (or_intror Rn)) as [Fr _].
      destruct (fc_vars _ _ _ _ _ _ Fc) as (v & Ev & (M1 & M2 & M3)).
      unfold set_res. rewrite (stk_front _ (ev_cs _ _ _ _ _ _ _ _ E0)), <- Ecs. cbn [hd_error]. rewrite Fr, get_vars_lk, Ev.
      cbn [f_hook f_id f_after]. rewrite (fo_run _ _ _ _ _ _ _ _ _ F).
      destruct (a_run a) as [[vp nid]|] eqn:Er; [|congruence]. cbn [option_map snd].
      set (a0 := a_with_v (vs_cur MSupercede (a_v a)) a). set (b1 := upd_vars b fid (vs_cur MSupercede)).
      cbn [a_unwind af_hook af_id af_after]. fold a0.
      assert (E1 : env h t0 w b1 fid aft fr c cs' A').
      { constructor; [|cbn; symmetry; exact Ecs|exact Nf]. apply env0_own; auto. destruct E0 as [X1 X2 X3 X4 X5]. constructor; auto. }
      pose proof (handler_done_spec h t0 w b1 fid aft fr c cs' A' hi a0 vp nid z W E1) as H.
      assert (Out : out_ok h t0 fid aft fr cs' A' (handler_done b1 fid hi nid z) (a_done h fid (length cs') a0 z w)).
      { apply H; clear H.
        - apply (hstat_ext hi a); auto. apply (fo_stat _ _ _ _ _ _ _ _ _ F).
        - destruct Fc as [F1 F2 F3 F4 F5 F6 F7]. constructor; auto.
          + exists (vs_cur MSupercede v). split; [apply lk_self; exact Ev|]. repeat split; auto.
          + change (a_alive a0) with (a_alive a). rewrite Al in *. exact F7.
        - apply (fo_phase _ _ _ _ _ _ _ _ _ F).
        - exact Er.
        - intros C. pose proof (proj2 (fo_wf _ _ _ _ _ _ _ _ _ F) C) as C'. congruence.
        - apply (fo_co _ _ _ _ _ _ _ _ _ F).
        - change (a_alive a0) with (a_alive a). congruence.
        - discriminate. }
      rewrite (rel_depth _ _ _ _ _ _ R').
      destruct (a_done h fid (length cs') a0 z w) as [a' w'|z' w'].
      * apply out_stop in Out. destruct Out as (b2 & hi2 & Eh & S). rewrite Eh. eexists. split; [reflexivity|exact S].
      * destruct Out as (b2 & Eh & E2 & S2). rewrite Eh. apply (IH w' b2 aft z' cs' A' W E2 S2).
Qed.

Lemma resume_spec : forall h t0 fid aft fr cs A o ao, WH h -> out_ok h t0 fid aft fr cs A o ao ->
  exists s, resume o fid aft fr = Some s /\ sok h t0 s (a_resume h ao fid aft A).
Proof.
  intros h t0 fid aft fr cs A o [a w|z w] W Out.
  - apply out_stop in Out. destruct Out as (b & hi & -> & S). eexists. split; [reflexivity|exact S].
  - destruct Out as (b & -> & E & S). cbn [resume a_resume]. apply (unwind_spec h t0 fr w b aft z cs A W E S).
Qed.
