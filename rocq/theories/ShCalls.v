(** Function calls, recalls and returns follow ShAbs.v. *)
From Coq Require Import List Bool Arith ZArith Lia Sorted.
From Verif Require Import ProtoModel ShModel ShRun ShLists ShInv ShMan ShHooks ShAdd ShRem ShHist ShGood ShSpec ShView ShAbs ShFrames ShRel.
Import ListNotations.
Local Open Scope nat_scope.

(** ** Looking up the hooks of a called function *)
Lemma search_vfns_spec : forall h v l, WH h -> In v (h_vfns h) -> In (vf_obj v) l ->
  (forall o, In o l -> exists x, get_vfn h o = Some x) -> search_vfns h (vf_ptr v) l = Some (Some v).
Proof.
  intros h v l W Hv. induction l as [|o l IH]; intros Hin All; [contradiction|]. cbn [search_vfns].
  destruct (All o (or_introl eq_refl)) as [x Ex]. rewrite Ex. destruct (Z.eqb_spec (vf_ptr x) (vf_ptr v)) as [E|N].
  - pose proof (find_some _ _ Ex) as [Hx _].
    rewrite (nodup_key_inj vf_ptr (h_vfns h) x v (wh_vptr h W) Hx Hv E). reflexivity.
  - destruct Hin as [->|Hin].
    + rewrite (get_vfn_of h v W Hv) in Ex. congruence.
    + apply IH; auto. intros o' Ho. apply All. right. exact Ho.
Qed.

Lemma mem_hooked : forall m0 h slot pf, WM m0 h -> h_mem h slot = CHook pf -> exists v, In v (h_vfns h) /\ vf_ptr v = slot.
Proof.
  intros m0 h slot pf W E. destruct (existsb (fun v => Z.eqb (vf_ptr v) slot) (h_vfns h)) eqn:X.
  - apply existsb_exists in X. destruct X as (v & Hv & Ev). exists v. split; auto. apply Z.eqb_eq. exact Ev.
  - rewrite (wm_mem0 _ _ W slot) in E; [discriminate|]. intros v Hv Ev.
    assert (C : existsb (fun v => Z.eqb (vf_ptr v) slot) (h_vfns h) = true). { apply existsb_exists. exists v. split; auto. apply Z.eqb_eq. exact Ev. }
    congruence.
Qed.

Lemma hookfunc_spec : forall m0 h slot pf, WM m0 h -> WH h -> WS h -> h_mem h slot = CHook pf ->
  exists v, In v (h_vfns h) /\ vf_ptr v = slot /\ hookfunc_vfn h pf slot = Some (Some v).
Proof.
  intros m0 h slot pf Wm Wh Ws E. destruct (mem_hooked m0 h slot pf Wm E) as (v & Hv & Ev). exists v. split; [exact Hv|split; [exact Ev|]].
  pose proof (wm_mem _ _ Wm v Hv) as Sc. rewrite Ev, E in Sc. unfold slot_code in Sc. destruct (vf_mans v) as [|mo l] eqn:Em.
  - rewrite (wm_orig _ _ Wm v Hv) in Sc. discriminate.
  - destruct (man_pf h mo) as [f|] eqn:Ef; [|discriminate]. cbn in Sc. injection Sc as ->.
    unfold man_pf in Ef. destruct (get_man h mo) as [m|] eqn:Eg; [|discriminate].
    assert (Vo : vfns_of h mo = Some (mn_vfns m)). { unfold vfns_of. rewrite Eg. reflexivity. }
    assert (Hin : In (vf_obj v) (mn_vfns m)). { apply (wm_act _ _ Wm mo _ (vf_obj v) Vo). exists v. rewrite Em. auto. }
    assert (Ac : active h mo). { unfold active. rewrite Vo. destruct (mn_vfns m) as [|x r]; [contradiction|]. eauto. }
    destruct (ws_act h Ws mo Ac) as (f & F1 & F2). unfold man_pf in F1. rewrite Eg in F1. rewrite Ef in F1. injection F1 as <-.
    unfold hookfunc_vfn. rewrite F2, Eg, <- Ev. apply search_vfns_spec; auto.
    intros o Ho. apply (wm_act _ _ Wm mo _ o Vo) in Ho. destruct Ho as (x & Hx & <- & _). exists x. apply get_vfn_of; auto.
Qed.

Lemma hookfunc_ext : forall h h' pf slot, h_vfns h' = h_vfns h -> h_mans h' = h_mans h -> h_mshi h' = h_mshi h ->
  hookfunc_vfn h' pf slot = hookfunc_vfn h pf slot.
Proof.
  intros h h' pf slot Ev Em Es. unfold hookfunc_vfn, get_man. rewrite Em, Es. destruct (h_mshi h pf) as [o|]; [|reflexivity].
  destruct (find (man_is o) (h_mans h)) as [m|]; [|reflexivity]. induction (mn_vfns m) as [|x l IH]; [reflexivity|].
  cbn [search_vfns]. unfold get_vfn in *. rewrite Ev, IH. reflexivity.
Qed.

Lemma orig_code_of : forall h v, WH h -> In v (h_vfns h) -> orig_code h (vf_ptr v) = vf_orig v.
Proof.
  intros h v W Hv. unfold orig_code, orig_entry. destruct (find (vfn_at (vf_ptr v)) (h_vfns h)) as [x|] eqn:F.
  - apply find_some in F. destruct F as [Hx Ex]. apply Z.eqb_eq in Ex.
    rewrite (nodup_key_inj vf_ptr (h_vfns h) x v (wh_vptr h W) Hx Hv Ex). reflexivity.
  - apply (find_none _ _ F) in Hv. unfold vfn_at in Hv. rewrite Z.eqb_refl in Hv. discriminate.
Qed.

Lemma presentb_iface : forall h v p, WH h -> WN h -> In v (h_vfns h) ->
  presentb h (vf_ptr v) p = match find_iface v p with Some _ => true | None => false end.
Proof.
  intros h v p W N Hv. unfold presentb. rewrite !(find_iface_installed h v p W Hv). destruct (find_iface v p) as [i|] eqn:F; [|reflexivity].
  apply (find_iface_spec h v p i W Hv) in F. destruct F as [Hi _]. destruct (N v Hv) as (_ & _ & Ne). specialize (Ne i Hi).
  cbn [hooks_of]. destruct (if_pre i ++ if_post i) eqn:X; [congruence|reflexivity].
Qed.

(** ** The relation does not depend on the rest of the state *)
Lemma live_ext : forall h h' v c a, h_vfns h' = h_vfns h -> live h v c a -> live h' v c a.
Proof. intros h h' v c a E [L1 L2 L3 L4 L5]. constructor; auto. rewrite E. exact L1. Qed.
Lemma fcore_ext : forall h h' vs ch fid c a, h_vfns h' = h_vfns h -> fcore h vs ch fid c a -> fcore h' vs ch fid c a.
Proof.
  intros h h' vs ch fid c a E [C1 C2 C3 C4 C5 C6 C7]. constructor; auto. destruct (a_alive a); auto.
  destruct C7 as (v & L). exists v. apply (live_ext h); auto.
Qed.
Lemma rel_ext : forall h h' vs susp fr cs A, h_vfns h' = h_vfns h -> h_nxt h <= h_nxt h' -> rel h vs susp fr cs A -> rel h' vs susp fr cs A.
Proof.
  intros h h' vs susp fr cs A E Lx R. induction R as [| | |susp fid aft hi fr c cs a A R IH F]; constructor; auto.
  destruct F as [F1 F2 F3 F4 F5 F6 F7 F8 Fn F9 F10]. constructor; auto.
  - apply (fcore_ext h); auto.
  - intros Al v L. apply F8; auto. apply (live_ext h'); auto.
  - intros vp n Ern. specialize (Fn vp n Ern). lia.
Qed.
Lemma next_ext : forall h h' a post from, h_vfns h' = h_vfns h -> next h' a post from = next h a post from.
Proof. intros h h' a post from E. unfold next, todo. rewrite !(installed_ext h h' E). reflexivity. Qed.
Lemma a_post_ext : forall h h' fid d a from w, h_vfns h' = h_vfns h -> a_post h' fid d a from w = a_post h fid d a from w.
Proof. intros. unfold a_post. rewrite (next_ext h h'); auto. Qed.
Lemma a_pre_ext : forall h h' fid d a from w, h_vfns h' = h_vfns h -> a_pre h' fid d a from w = a_pre h fid d a from w.
Proof. intros. unfold a_pre, a_begin_post. rewrite (next_ext h h'), (a_post_ext h h'); auto. Qed.
Lemma a_begin_post_ext : forall h h' fid d a from w, h_vfns h' = h_vfns h -> a_begin_post h' fid d a from w = a_begin_post h fid d a from w.
Proof. intros. unfold a_begin_post. apply a_post_ext. auto. Qed.
Lemma a_done_ext : forall h h' fid d a z w, h_vfns h' = h_vfns h -> a_done h' fid d a z w = a_done h fid d a z w.
Proof. intros. unfold a_done. destruct (a_run a) as [[vp n]|]; auto. destruct (a_phase a); auto using a_pre_ext, a_post_ext. Qed.
Lemma a_unwind_ext : forall h h' A aft z w, h_vfns h' = h_vfns h -> a_unwind h' aft z A w = a_unwind h aft z A w.
Proof.
  intros h h' A. induction A as [|f A IH]; intros aft z w E; destruct aft; auto. cbn [a_unwind].
  destruct (af_hook f); auto. rewrite (a_done_ext h h'); auto. destruct (a_done h _ _ _ _ _); auto.
Qed.
Lemma a_resume_ext : forall h h' o fid aft A, h_vfns h' = h_vfns h -> a_resume h' o fid aft A = a_resume h o fid aft A.
Proof. intros h h' o fid aft A E. destruct o; auto. cbn. apply a_unwind_ext. exact E. Qed.

Lemma WH_nxt : forall h n, WH h -> h_nxt h <= n -> WH (set_nxt h n).
Proof. intros h n W L. apply (WH_ext h); auto. Qed.

Lemma rel_ids : forall h vs susp fr cs A, rel h vs susp fr cs A -> ids fr = map af_id A.
Proof. intros h vs susp fr cs A R. induction R; cbn [ids map f_id af_id]; try reflexivity; f_equal; exact IHR. Qed.

(** A new activation's variables do not disturb the others. *)
Lemma rel_new_vars : forall h vs susp fr cs A fid v, rel h vs susp fr cs A -> NoDup (ids fr) -> ~ In fid (ids fr) ->
  rel h ((fid, v) :: vs) susp fr cs A.
Proof.
  intros h vs susp fr cs A fid v R Nd Nf.
  assert (X : forall g, In g (ids fr) -> lk ((fid, v) :: vs) g = lk vs g).
  { intros g Hg. rewrite lk_cons. destruct (Nat.eqb_spec fid g) as [->|]; [contradiction|reflexivity]. }
  apply (rel_vars h vs); auto. intros g Hg. rewrite X by exact Hg. apply meta_same_refl.
Qed.

(** ** Calls *)
(** The hook function knows the position it is called through. *)
Definition knows (h : hs) (this vo idx : Z) : Prop :=
  forall pf i, h_mem h (slot_of h this vo idx) = CHook pf -> h_pfs h pf = Some i ->
    slot_of h this (pf_voffs i) (pf_vidx i) = slot_of h this vo idx.

Lemma slot_pf : forall m0 h slot pf, WM m0 h -> h_mem h slot = CHook pf -> exists i, h_pfs h pf = Some i.
Proof.
  intros m0 h slot pf Wm E. destruct (mem_hooked m0 h slot pf Wm E) as (v & Hv & Ev).
  pose proof (wm_mem _ _ Wm v Hv) as Sc. rewrite Ev, E in Sc. unfold slot_code in Sc. destruct (vf_mans v) as [|mo l] eqn:Em.
  - rewrite (wm_orig _ _ Wm v Hv) in Sc. discriminate.
  - unfold man_pf in Sc. destruct (get_man h mo) as [m|] eqn:Eg; [|discriminate]. cbn in Sc. injection Sc as E'.
    pose proof (find_some _ _ Eg) as [Hm _]. destruct (wm_ver _ _ Wm m Hm) as (i & Hi & _). exists i. congruence.
Qed.

Lemma front_normal' : forall h vs su fr l A, rel h vs su fr l A -> forall c cs, l = c :: cs -> su = false -> take_ign A = None ->
  cx_state c <> SIgnore /\ is_recall (cx_state c) = false.
Proof.
  intros h vs su fr l A R.
  induction R as [|fid aft fr l A R IH Na|fid fr c' l A R IH Es' Eo Evn|susp fid aft hi fr c' l a A R IH F]; intros c cs El Es T.
  - discriminate.
  - cbn [take_ign af_hook af_ign] in T. destruct (take_ign A) eqn:TA; [discriminate|]. apply (IH c cs); auto.
  - cbn [take_ign af_hook af_ign] in T. discriminate.
  - injection El as -> ->. pose proof (fo_core _ _ _ _ _ _ _ _ _ F) as Fc. pose proof (fc_live _ _ _ _ _ _ Fc) as Lv.
    destruct (a_alive a) eqn:Al; [|rewrite Lv; split; [discriminate|reflexivity]].
    destruct Lv as (v & L). pose proof (fo_loop _ _ _ _ _ _ _ _ _ F Al v L) as Lp. unfold loop_ok in Lp.
    destruct (a_phase a), (a_run a) as [[[|] n]|]; cbn [run_state] in Lp; try contradiction;
      first [rewrite Lp; split; [discriminate|reflexivity]|destruct Lp as [Lp _]; rewrite Lp; split; [discriminate|reflexivity]].
Qed.

Lemma front_normal : forall h vs fr c cs A, rel h vs false fr (c :: cs) A -> take_ign A = None ->
  cx_state c <> SIgnore /\ is_recall (cx_state c) = false.
Proof. intros h vs fr c cs A R T. apply (front_normal' h vs false fr (c :: cs) A R c cs); auto. Qed.

(** All we need about a state before a call *)
Record pre_call (m0 : Z -> Z) (b : base) (fr : list frame) (cs : list ctx) (A : list aframe) : Prop := {
  pc_wm : WM m0 (b_h b); pc_wh : WH (b_h b); pc_wn : WN (b_h b); pc_ws : WS (b_h b);
  pc_cs : cs_ok (b_cs b); pc_rel : rel (b_h b) (b_vars b) false fr cs A; pc_nd : NoDup (ids fr);
  pc_fresh : forall g, In g (ids fr) -> g < h_nxt (b_h b) }.

Lemma set_tr_self : forall h, set_tr h (h_tr h) = h.
Proof. intros []. reflexivity. Qed.

Lemma do_call_native : forall m0 b fr cs A this vo idx p aft c, pre_call m0 b fr cs A -> stk (b_cs b) = cs -> is_rec aft = false ->
  h_mem (b_h b) (slot_of (b_h b) this vo idx) = COrig c ->
  exists s, do_call (State b fr) this vo idx p aft = Some s /\
    sok (set_nxt (b_h b) (S (h_nxt (b_h b)))) (h_tr (b_h b)) s (a_native (b_h b) this vo idx p aft false A (World (b_pend b) [])).
Proof.
  intros m0 b fr cs A this vo idx p aft c [P1 P2 P3 P4 P5 P6 P7 P8] Es Na Em. unfold do_call. cbn [s_b s_fr]. rewrite Em.
  eexists. split; [reflexivity|]. constructor; cbn [s_b s_fr as_fr as_w a_native wemit w_obs w_pend].
  - rewrite Em. reflexivity.
  - reflexivity.
  - exact P5.
  - change (stk (b_cs (bemit (set_h b (set_nxt (b_h b) (S (h_nxt (b_h b))))) (ONative (h_nxt (b_h b)) (COrig c) this p)))) with (stk (b_cs b)).
    rewrite Es. constructor; auto. apply (rel_ext (b_h b)); auto; cbn [h_nxt set_nxt]; lia.
  - cbn [ids map f_id]. constructor; auto. intros C. apply P8 in C. lia.
Qed.

Lemma do_call_sh_native : forall m0 b fr cs A this vo idx p c, pre_call m0 b fr cs A -> stk (b_cs b) = cs ->
  h_mem (b_h b) (slot_of (b_h b) this vo idx) = COrig c ->
  exists s, do_call (State (set_ignore b) fr) this vo idx p AReset = Some s /\
    sok (set_nxt (b_h b) (S (h_nxt (b_h b)))) (h_tr (b_h b)) s (a_native (b_h b) this vo idx p AReset true A (World (b_pend b) [])).
Proof.
  intros m0 b fr cs A this vo idx p c [P1 P2 P3 P4 P5 P6 P7 P8] Es Em. unfold do_call. cbn [s_b s_fr].
  change (b_h (set_ignore b)) with (b_h b). rewrite Em.
  destruct (stk_push (b_cs b) (Ctx SIgnore INull None None None 0 None None None false None) P5 eq_refl) as [O S].
  eexists. split; [reflexivity|]. constructor; cbn [s_b s_fr as_fr as_w a_native wemit w_obs w_pend].
  - rewrite Em. reflexivity.
  - reflexivity.
  - exact O.
  - change (stk (b_cs (bemit (set_h (set_ignore b) (set_nxt (b_h b) (Datatypes.S (h_nxt (b_h b))))) (ONative (h_nxt (b_h b)) (COrig c) this p))))
      with (stk (cs_push (b_cs b) (Ctx SIgnore INull None None None 0 None None None false None))).
    rewrite S, Es. constructor; auto. apply (rel_ext (b_h b)); auto; cbn [h_nxt set_nxt]; lia.
  - cbn [ids map f_id]. constructor; auto. intros C. apply P8 in C. lia.
Qed.

Lemma do_call_hooked : forall m0 b fr cs A this vo idx p aft pf, pre_call m0 b fr cs A -> stk (b_cs b) = cs -> is_rec aft = false ->
  take_ign A = None -> knows (b_h b) this vo idx ->
  h_mem (b_h b) (slot_of (b_h b) this vo idx) = CHook pf ->
  exists s, do_call (State b fr) this vo idx p aft = Some s /\
    sok (set_nxt (b_h b) (S (h_nxt (b_h b)))) (h_tr (b_h b)) s (a_hooked (b_h b) this vo idx p aft A (World (b_pend b) [])).
Proof.
  intros m0 b fr cs A this vo idx p aft pf [P1 P2 P3 P4 P5 P6 P7 P8] Es Na Ti Kn Em. unfold do_call. cbn [s_b s_fr]. rewrite Em.
  destruct (slot_pf m0 (b_h b) _ pf P1 Em) as (i & Hi). rewrite Hi, (Kn pf i Em Hi).
  set (h := b_h b) in *. set (slot := slot_of h this vo idx) in *. set (fid := h_nxt h) in *. set (h1 := set_nxt h (S fid)).
  assert (Nf : ~ In fid (ids fr)). { intros C. apply P8 in C. unfold fid in C. lia. }
  destruct (hookfunc_spec m0 h slot pf P1 P2 P4 Em) as (v & Hv & Ev & Hf).
  set (kd := match cs_front (b_cs b) with Some c => _ | None => _ end).
  assert (Ekd : kd = KNormal).
  { unfold kd. rewrite (stk_front _ P5), Es. destruct cs as [|c cs']; cbn [hd_error]; [reflexivity|].
    destruct (front_normal h (b_vars b) fr c cs' A P6 Ti) as [F1 F2]. destruct (cx_state c); try congruence; try discriminate F2; reflexivity. }
  rewrite Ekd. clear kd Ekd.
  set (b1 := set_vars (bemit (set_h b h1) (OBegin fid slot this p KNormal)) ((fid, Vars MIgnored MIgnored MIgnored 0 0) :: b_vars b)).
  assert (E1 : env0 h1 (h_tr h) (World (b_pend b) [OBegin fid slot this p KNormal]) b1 aft fr cs A).
  { constructor; auto. rewrite Na. apply (rel_ext h); [reflexivity|cbn [h_nxt set_nxt h1]; lia|]. apply rel_new_vars; auto. }
  destruct (cs_make_next (b_cs b)) as [old cs1] eqn:Mk.
  destruct (stk_make_next _ _ _ P5 Mk) as (O1 & S1 & T1). rewrite Es in S1.
  set (ifo := match find_iface v this with Some i0 => Some (if_obj i0) | None => None end).
  set (c' := Ctx SBorn (cx_iter old) (Some (vf_obj v)) ifo (Some fid) this (Some (RP fid true)) (Some (RP fid false)) (cx_ifp old) true (cx_task old)).
  assert (Su : setup_loop b1 fid pf slot this = Some (set_cs b1 (cs_set_front cs1 c'), length cs, Some (vf_orig v))).
  { assert (Fr : forall X, X = (let (old0, cs2) := cs_make_next (b_cs b1) in
        match setup_tail (b_h b1) (Ctx SBorn (cx_iter old0) (cx_vfn old0) (cx_iface old0) (cx_frame old0) (cx_this old0) (cx_orig old0) (cx_over old0) (cx_ifp old0) true (cx_task old0))
          pf slot this fid (Some (RP fid true)) (Some (RP fid false)) with
        | None => None | Some (c0, a) => Some (set_cs b1 (cs_set_front cs2 c0), cs_depth (b_cs b1), a) end) ->
        X = Some (set_cs b1 (cs_set_front cs1 c'), length cs, Some (vf_orig v))).
    { intros X ->. change (b_cs b1) with (b_cs b). rewrite Mk. unfold setup_tail.
      rewrite (hookfunc_ext h (b_h b1)), Hf by reflexivity.
      cbn [cx_state cx_iter cx_ifp cx_call_orig cx_task]. fold ifo. fold c'. rewrite <- (stk_length _ P5), Es. reflexivity. }
    unfold setup_loop. change (b_cs b1) with (b_cs b). rewrite (stk_front _ P5), Es.
    destruct cs as [|c cs']; cbn [hd_error]; [apply Fr; reflexivity|].
    destruct (front_normal h (b_vars b) fr c cs' A P6 Ti) as [F1 F2].
    destruct (cx_state c); try congruence; try discriminate F2; apply Fr; reflexivity. }
  rewrite Su.
  destruct (stk_set_front cs1 old cs c' O1 S1 T1) as [O2 S2].
  set (a := AHook slot this p (orig_code h slot) true (presentb h slot this) true PPre None v_init 0).
  assert (Lv : live h1 v c' a).
  { constructor; auto. cbn [a a_seen a_this c' cx_iface]. unfold ifo. rewrite <- Ev, (presentb_iface h v this P2 P3 Hv).
    destruct (find_iface v this) as [j|]; [exists j; auto|reflexivity]. }
  assert (W1 : WH h1). { apply WH_nxt; [exact P2|unfold fid; lia]. }
  assert (E2 : env h1 (h_tr h) (World (b_pend b) [OBegin fid slot this p KNormal])
                 (upd_vars (set_cs b1 (cs_set_front cs1 c')) fid (vs_prev MIgnored)) fid aft fr c' cs A).
  { constructor; auto. apply env0_own; auto. apply env0_cs; auto. }
  assert (Lk : lk (b_vars (upd_vars (set_cs b1 (cs_set_front cs1 c')) fid (vs_prev MIgnored))) fid = Some v_init).
  { cbn [upd_vars set_vars b_vars set_cs set_k b1]. rewrite lk_upd, Nat.eqb_refl, lk_cons, Nat.eqb_refl. reflexivity. }
  pose proof (run_pre_spec h1 (h_tr h) _ _ fid aft fr c' cs A (HInfo pf this slot p (length cs) (Some (vf_orig v)) PPre None) a None W1 E2) as R.
  destruct (resume_spec h1 (h_tr h) fid aft fr cs A _ _ W1 (R ltac:(constructor; auto; cbn [a a_addr hi_addr]; rewrite <- Ev, (orig_code_of h v P2 Hv); reflexivity)
    ltac:(constructor; cbn; [reflexivity|left; reflexivity|reflexivity|split; [left; reflexivity|congruence]|intros _; split; [reflexivity|discriminate]|
          exists v_init; split; [exact Lk|repeat split]|exists v; exact Lv])
    ltac:(intros _; exists v; split; [exact Lv|reflexivity]) ltac:(cbn; discriminate) eq_refl)) as (s & Er & Sk).
  exists s. split; [exact Er|]. unfold a_hooked. fold slot. fold fid. rewrite (rel_depth _ _ _ _ _ _ P6).
  rewrite (a_resume_ext h h1), (a_pre_ext h h1) in Sk by reflexivity. exact Sk.
Qed.

Lemma do_call_ignored : forall m0 b fr c cs A this vo idx p aft pf, pre_call m0 b fr cs A -> stk (b_cs b) = c :: cs -> is_rec aft = false ->
  cx_state c = SIgnore -> cx_over c = None -> knows (b_h b) this vo idx ->
  h_mem (b_h b) (slot_of (b_h b) this vo idx) = CHook pf ->
  exists s, do_call (State b fr) this vo idx p aft = Some s /\
    sok (set_nxt (b_h b) (S (h_nxt (b_h b)))) (h_tr (b_h b)) s (a_ignored (b_h b) this vo idx p aft A (World (b_pend b) [])).
Proof.
  intros m0 b fr c cs A this vo idx p aft pf [P1 P2 P3 P4 P5 P6 P7 P8] Es Na Si Oi Kn Em. unfold do_call. cbn [s_b s_fr]. rewrite Em.
  destruct (slot_pf m0 (b_h b) _ pf P1 Em) as (i & Hi). rewrite Hi, (Kn pf i Em Hi).
  set (h := b_h b) in *. set (slot := slot_of h this vo idx) in *. set (fid := h_nxt h) in *. set (h1 := set_nxt h (S fid)).
  assert (Nf : ~ In fid (ids fr)). { intros C. apply P8 in C. unfold fid in C. lia. }
  destruct (hookfunc_spec m0 h slot pf P1 P2 P4 Em) as (v & Hv & Ev & Hf).
  rewrite (stk_front _ P5), Es. cbn [hd_error]. rewrite Si.
  set (b1 := set_vars (bemit (set_h b h1) (OBegin fid slot this p KIgnored)) ((fid, Vars MIgnored MIgnored MIgnored 0 0) :: b_vars b)).
  assert (E1 : env0 h1 (h_tr h) (World (b_pend b) [OBegin fid slot this p KIgnored]) b1 aft fr cs A).
  { constructor; auto. rewrite Na. apply (rel_ext h); [reflexivity|cbn [h_nxt set_nxt h1]; lia|]. apply rel_new_vars; auto. }
  pose proof (ctx_task b c cs P5 Es) as Tc.
  set (c' := Ctx SDead (cx_iter c) (Some (vf_obj v)) (cx_iface c) (cx_frame c) (cx_this c) (Some (RP fid true)) (cx_over c) (cx_ifp c) true (cx_task c)).
  destruct (stk_set_front (b_cs b) c cs c' P5 Es Tc) as [O2 S2].
  assert (Su : setup_loop b1 fid pf slot this = Some (upd_vars (set_cs b1 (cs_set_front (b_cs b) c')) fid (vs_status MIgnored), length cs, Some (vf_orig v))).
  { unfold setup_loop. change (b_cs b1) with (b_cs b). rewrite (stk_front _ P5), Es. cbn [hd_error]. rewrite Si.
    rewrite (hookfunc_ext h (b_h b1)), Hf by reflexivity.
    destruct (stk_cons _ _ _ P5 Es) as (Dp & _ & _). rewrite Dp. cbn [Nat.sub]. rewrite Nat.sub_0_r. reflexivity. }
  rewrite Su.
  set (a := AHook slot this p (orig_code h slot) false false true PPre None v_init 0).
  assert (W1 : WH h1). { apply WH_nxt; [exact P2|unfold fid; lia]. }
  set (b2 := upd_vars (upd_vars (set_cs b1 (cs_set_front (b_cs b) c')) fid (vs_status MIgnored)) fid (vs_prev MIgnored)).
  assert (E2 : env h1 (h_tr h) (World (b_pend b) [OBegin fid slot this p KIgnored]) b2 fid aft fr c' cs A).
  { constructor; auto. apply env0_own; auto. apply env0_own; auto. apply env0_cs; auto. }
  assert (Lk : lk (b_vars b2) fid = Some v_init).
  { unfold b2. cbn [upd_vars set_vars b_vars set_cs set_k b1]. rewrite !lk_upd, Nat.eqb_refl, lk_cons, Nat.eqb_refl. reflexivity. }
  pose proof (run_pre_spec h1 (h_tr h) _ _ fid aft fr c' cs A (HInfo pf this slot p (length cs) (Some (vf_orig v)) PPre None) a None W1 E2) as R.
  destruct (resume_spec h1 (h_tr h) fid aft fr cs A _ _ W1 (R ltac:(constructor; auto; cbn [a a_addr hi_addr]; rewrite <- Ev, (orig_code_of h v P2 Hv); reflexivity)
    ltac:(constructor; cbn [a a_alive a_callorig a_run a_v c' cx_call_orig cx_orig cx_over cx_frame cx_state];
          [reflexivity|left; reflexivity|reflexivity|rewrite Oi; split; [exact I|discriminate]|intros [C|C]; congruence|
          exists v_init; split; [exact Lk|repeat split]|reflexivity])
    ltac:(discriminate) ltac:(cbn; discriminate) eq_refl)) as (s & Er & Sk).
  exists s. split; [exact Er|]. unfold a_ignored. fold slot. fold fid. rewrite (rel_depth _ _ _ _ _ _ P6).
  rewrite (a_resume_ext h h1), (a_pre_ext h h1) in Sk by reflexivity. exact Sk.
Qed.

(** ** Recalls *)
Lemma live_unique : forall h v v' c a, WH h -> live h v c a -> In v' (h_vfns h) -> vf_ptr v' = a_slot a -> v' = v.
Proof.
  intros h v v' c a W L Hv Ep. apply (nodup_key_inj vf_ptr (h_vfns h)); [apply (wh_vptr h W)|exact Hv|apply (lv_in _ _ _ _ L)|].
  rewrite (lv_ptr _ _ _ _ L). exact Ep.
Qed.

Lemma hooked_mem : forall m0 h v, WM m0 h -> WN h -> In v (h_vfns h) -> exists pf, h_mem h (vf_ptr v) = CHook pf.
Proof.
  intros m0 h v Wm Wn Hv. pose proof (wm_mem _ _ Wm v Hv) as Sc. destruct (Wn v Hv) as (Ne & _). unfold slot_code in Sc.
  destruct (vf_mans v) as [|mo l] eqn:Em; [congruence|]. destruct (man_pf h mo) as [f|]; [|discriminate]. exists f. cbn in Sc. congruence.
Qed.

Lemma rd_other : forall vs vs' p, (forall g o, p = Some (RP g o) -> lk vs' g = lk vs g) -> rd vs' p = rd vs p.
Proof. intros vs vs' [[g o]|] H; [|reflexivity]. cbn. rewrite (H g o eq_refl). reflexivity. Qed.

Lemma setup_recall : forall b fid pf slot this c pfid pv, cs_front (b_cs b) = Some c -> is_recall (cx_state c) = true ->
  cx_frame c = Some pfid -> get_vars b pfid = Some pv ->
  setup_loop b fid pf slot this =
    let b1 := upd_vars b fid (fun v => vs_prev (v_prev pv) (vs_status (v_status pv) v)) in
    let post := is_recall_post (cx_state c) in
    let orig := if post then cx_orig c else Some (RP fid true) in
    let over := if post && negb (meta_ge (v_status pv) MOverride) then cx_orig c else cx_over c in
    let c1 := Ctx (cx_state c) (cx_iter c) (cx_vfn c) (cx_iface c) (cx_frame c) (cx_this c)
                  (cx_orig c) (cx_over c) (cx_ifp c) (negb post) (cx_task c) in
    match setup_tail (b_h b) c1 pf slot this fid orig over with
    | None => None
    | Some (c', a) => Some (set_cs b1 (cs_set_front (b_cs b) c'), cs_depth (b_cs b) - 1, a)
    end.
Proof.
  intros b fid pf slot this c pfid pv E1 E2 E3 E4. unfold setup_loop. rewrite E1, E3, E4.
  destruct (cx_state c); try discriminate E2; reflexivity.
Qed.

Lemma recall_spec : forall m0 b fid aft hi fr c cs A a vp nid res val offs vo idx p,
  pre_call m0 b (Frame fid aft (Some hi) :: fr) (c :: cs) (AFrame fid aft false (Some a) :: A) -> stk (b_cs b) = c :: cs ->
  a_run a = Some (vp, nid) -> cx_state c <> SDead -> (a_ifp a + offs)%Z = a_this a ->
  slot_of (b_h b) (a_this a) vo idx = a_slot a -> knows (b_h b) (a_this a) vo idx ->
  exists s, recall_call (State (bemit b (ORecall fid nid res val)) (Frame fid aft (Some hi) :: fr)) res val offs vo idx p = Some s /\
    sok (set_nxt (b_h b) (S (h_nxt (b_h b)))) (h_tr (b_h b)) s
      (a_recall (b_h b) res val p (AFrame fid aft false (Some a)) a nid A (World (b_pend b) [])).
Proof.
  intros m0 b fid aft hi fr c cs A a vp nid res val offs vo idx p [P1 P2 P3 P4 P5 P6 P7 P8] Es Er Nd Eth Esl Kn.
  set (h := b_h b) in *. set (this := a_this a) in *.
  inversion P6 as [| | |su x1 x2 x3 x4 x5 x6 x7 x8 R F X1 X2 X3 X4]; subst. clear P6.
  cbn [ids map f_id] in P7, P8. inversion P7 as [|x y Nf Ndf]; subst x y.
  pose proof (fo_core _ _ _ _ _ _ _ _ _ F) as Fc.
  assert (Al : a_alive a = true). { destruct (a_alive a) eqn:Al; [reflexivity|]. pose proof (fc_live _ _ _ _ _ _ Fc) as D. rewrite Al in D. contradiction. }
  pose proof (fc_live _ _ _ _ _ _ Fc) as Lv. rewrite Al in Lv. destruct Lv as (v & L).
  pose proof (fo_loop _ _ _ _ _ _ _ _ _ F Al v L) as Lp. unfold loop_ok in Lp. rewrite Er in Lp.
  destruct (fc_frame _ _ _ _ _ _ Fc (or_introl Al)) as [Fr Nov].
  destruct (fc_vars _ _ _ _ _ _ Fc) as (va & Eva & (M1 & M2 & M3)).
  destruct (fo_vals _ _ _ _ _ _ _ _ _ F eq_refl) as [Ov Or].
  assert (Np : a_phase a <> POrig). { intros C. pose proof (proj2 (fo_wf _ _ _ _ _ _ _ _ _ F) C). congruence. }
  assert (Eip : cx_ifp c = Some (a_ifp a)). { apply (fo_ifp _ _ _ _ _ _ _ _ _ F). congruence. }
  set (post := match a_phase a with PPost => true | _ => false end).
  assert (St : cx_state c = run_state post vp /\ iter_ok v c a post vp nid).
  { unfold post. destruct (a_phase a); [exact Lp|congruence|exact Lp]. }
  clear Lp. destruct St as [St It].
  pose proof (ctx_task b c cs P5 Es) as Tc.
  set (st := recall_state (run_state post vp)).
  assert (Rs : is_recall st = true /\ is_recall_post st = post /\ st <> SIgnore). { unfold st. destruct post, vp; repeat split; discriminate. }
  destruct Rs as (Rs1 & Rs2 & Rs3).
  (* the old activation *)
  set (b0 := bemit b (ORecall fid nid res val)).
  set (b1 := upd_vars b0 fid (vs_cur res)).
  set (smax := fun v => vs_status (if meta_gt (v_cur v) (v_status v) then v_cur v else v_status v) v).
  set (cd := cx_set_state c SDead).
  set (n := Ctx st (cx_iter c) None None (Some fid) 0 (if post then cx_orig c else None) (cx_over c) None false None).
  set (b2 := set_cs (upd_vars b1 fid smax) (cs_push (cs_set_front (b_cs b) cd) n)).
  set (v1 := vs_cur res (vs_status (meta_max res (v_status (a_v a))) (a_v a))).
  destruct (stk_set_front (b_cs b) c cs cd P5 Es Tc) as [Od Sd].
  destruct (stk_push _ n Od eq_refl) as [On Sn]. rewrite Sd in Sn.
  assert (Lk2 : lk (b_vars b2) fid = Some (smax (vs_cur res va))).
  { unfold b2, b1, b0. cbn [set_cs set_k upd_vars set_vars b_vars bemit set_h]. erewrite lk_self; [reflexivity|]. apply lk_self. exact Eva. }
  assert (Me1 : meta_eq (smax (vs_cur res va)) v1). { unfold smax, v1, meta_eq, meta_max. cbn. rewrite M1, M2. auto. }
  assert (Rd2 : forall q, rd (b_vars b2) q = rd (b_vars b) q).
  { intros q. unfold b2, b1, b0. cbn [set_cs set_k upd_vars set_vars b_vars bemit set_h]. rewrite !rd_upd by (intros; split; reflexivity). reflexivity. }
  assert (Vm2 : vmod fid (chain_of fid aft fr) (b_vars b) (b_vars b2)).
  { eapply vmod_trans; apply vmod_upd; left; reflexivity. }
  assert (X : exists b3, (if meta_ge res MOverride then write_ret b2 (cx_over c) val else Some b2) = Some b3 /\ b_k b3 = b_k b2 /\
    b_pend b3 = b_pend b /\ vmod fid (chain_of fid aft fr) (b_vars b) (b_vars b3) /\
    (exists v3, lk (b_vars b3) fid = Some v3 /\ meta_eq v3 v1) /\
    (meta_ge (v_status v1) MOverride = true -> rd (b_vars b3) (cx_over c) = Some (if meta_ge res MOverride then val else v_vret (a_v a))) /\
    (meta_ge (v_status v1) MOverride = false -> post = true -> rd (b_vars b3) (cx_orig c) = Some (v_oret (a_v a)))).
  { destruct (meta_ge res MOverride) eqn:G.
    - destruct (cx_over c) as [[g o]|] eqn:Eo; [|congruence].
      assert (Hg : In g (chain_of fid aft fr)). { pose proof (proj1 (fc_over _ _ _ _ _ _ Fc)) as Q. rewrite Eo in Q. exact Q. }
      assert (Lg : lk (b_vars b2) g <> None).
      { assert (Lb : lk (b_vars b) g <> None).
        { destruct Hg as [<-|Hg]; [congruence|]. destruct (is_rec aft); [|contradiction]. apply (rel_chain_vars _ _ _ _ _ _ _ R Hg). }
        destruct (Nat.eqb_spec g fid) as [->|Ng]; [congruence|]. destruct Vm2 as [_ V]. specialize (V g Ng).
        destruct (lk (b_vars b) g); [|congruence]. destruct (lk (b_vars b2) g); [discriminate|contradiction]. }
      destruct (write_spec b2 fid (chain_of fid aft fr) g o val Hg Lg) as (b3 & Ew & Ek & Ep & Vm & Ms & Rr).
      exists b3. split; [exact Ew|]. split; [exact Ek|]. split; [exact Ep|]. split; [eapply vmod_trans; eauto|]. split; [|split].
      + specialize (Ms fid). rewrite Lk2 in Ms. destruct (lk (b_vars b3) fid) as [v3|]; [|contradiction]. exists v3. split; [reflexivity|].
        cbn [meta_same] in Ms. destruct Ms as (S1 & S2 & S3). destruct Me1 as (N1 & N2 & N3).
        split; [rewrite S1; exact N1|split; [rewrite S2; exact N2|rewrite S3; exact N3]].
      + intros _. exact Rr.
      + intros C. unfold v1 in C. cbn [vs_cur vs_status v_status] in C. rewrite ge_max, G in C. discriminate.
    - exists b2. split; [reflexivity|]. split; [reflexivity|]. split; [reflexivity|]. split; [exact Vm2|]. split; [eauto|].
      unfold v1. cbn [vs_cur vs_status v_status]. rewrite ge_max, G. cbn [orb]. split.
      + intros C. rewrite Rd2. apply Ov. exact C.
      + intros C Hp. rewrite Rd2. apply Or; [|exact C]. unfold post in Hp. destruct (a_phase a); congruence. }
  destruct X as (b3 & Ew & Ek3 & Ep3 & Vm3 & (v3 & Lk3 & (N1 & N2 & N3)) & Ov3 & Or3).
  assert (Cs3 : b_cs b3 = cs_push (cs_set_front (b_cs b) cd) n). { unfold b_cs at 1. rewrite Ek3. reflexivity. }
  assert (H3 : b_h b3 = set_tr h (ORecall fid nid res val :: h_tr h)). { unfold b_h at 1. rewrite Ek3. reflexivity. }
  set (fr2 := Frame fid aft (Some hi) :: fr) in *. set (cs2 := cd :: cs).
  set (A2 := AFrame fid aft false (Some (a_off v1 a)) :: A).
  assert (Rel3 : rel h (b_vars b3) true fr2 cs2 A2).
  { constructor.
    - apply (rel_below h (b_vars b) _ fid); auto.
    - destruct F as [F1 F2 F3 F4 F5 F6 F7 F8 Fn F9 F10].
      constructor; cbn [a_off a_phase a_run a_callorig a_alive cd cx_set_state cx_ifp]; auto.
      + apply (hstat_ext hi a); auto.
      + destruct F7 as [Q1 Q2 Q3 Q4 Q5 Q6 Q7]. constructor; cbn [a_off a_alive a_callorig a_run a_v cd cx_set_state cx_call_orig cx_orig cx_over cx_frame cx_state]; auto.
        exists v3. split; [exact Lk3|]. repeat split; auto.
      + discriminate.
      + intros _. split; [reflexivity|congruence].
      + discriminate. }
  (* the code *)
  unfold recall_call. cbn [s_b s_fr]. unfold set_res.
  change (b_cs b0) with (b_cs b). rewrite (stk_front _ P5), Es. cbn [hd_error]. rewrite Fr.
  rewrite get_vars_lk. change (b_vars b0) with (b_vars b). rewrite Eva. fold b1.
  unfold do_recall. change (b_cs b1) with (b_cs b). rewrite (stk_front _ P5), Es. cbn [hd_error]. rewrite Fr, get_vars_lk.
  assert (Lk1 : lk (b_vars b1) fid = Some (vs_cur res va)). { apply lk_self. exact Eva. }
  rewrite Lk1, St. fold st. rewrite Rs2. fold n. fold smax.
  change (b_cs (upd_vars b1 fid smax)) with (b_cs b). fold cd. fold b2.
  change (b_cs b2) with (cs_push (cs_set_front (b_cs b) cd) n). rewrite (stk_front _ On), Sn. cbn [hd_error].
  change (cx_over n) with (cx_over c). rewrite Ew.
  unfold iface_ptr. rewrite Cs3, (stk_front _ On), Sn. cbn [hd_error]. change (cx_state n) with st. rewrite Rs1.
  rewrite (stk_second _ n cd cs On Sn). change (cx_ifp cd) with (cx_ifp c). rewrite Eip, Eth. fold this.
  (* the new call *)
  unfold do_call. cbn [s_b s_fr].
  assert (Eslot : slot_of (b_h b3) this vo idx = a_slot a). { rewrite H3. exact Esl. }
  rewrite Eslot. assert (Em3 : h_mem (b_h b3) = h_mem h) by (rewrite H3; reflexivity). rewrite Em3.
  pose proof (lv_in _ _ _ _ L) as Hv. pose proof (lv_ptr _ _ _ _ L) as Evp.
  destruct (hooked_mem m0 h v P1 P3 Hv) as (pf & Em). rewrite Evp in Em. rewrite Em.
  assert (Epf3 : h_pfs (b_h b3) = h_pfs h) by (rewrite H3; reflexivity). rewrite Epf3.
  destruct (slot_pf m0 h _ pf P1 Em) as (i & Hi). rewrite Hi.
  assert (Esl2 : slot_of (b_h b3) this (pf_voffs i) (pf_vidx i) = a_slot a).
  { rewrite H3. rewrite <- Esl. apply (Kn pf i); [rewrite Esl; exact Em|exact Hi]. }
  rewrite Esl2. set (slot := a_slot a) in *.
  rewrite Cs3, (stk_front _ On), Sn. cbn [hd_error]. change (cx_state n) with st.
  set (kd := match st with SIgnore => _ | _ => _ end).
  assert (Ekd : kd = KRecall fid). { unfold kd, st. destruct post, vp; reflexivity. }
  rewrite Ekd. clear kd Ekd.
  assert (Enx : h_nxt (b_h b3) = h_nxt h) by (rewrite H3; reflexivity). rewrite Enx.
  set (fid2 := h_nxt h) in *. set (h1 := set_nxt h (S fid2)).
  assert (Nf2 : ~ In fid2 (ids fr2)). { intros C. apply P8 in C. unfold fid2 in C. lia. }
  set (b4 := set_vars (bemit (set_h b3 (set_nxt (b_h b3) (S fid2))) (OBegin fid2 slot this p (KRecall fid))) ((fid2, Vars MIgnored MIgnored MIgnored 0 0) :: b_vars b3)).
  set (w1 := World (b_pend b) [OBegin fid2 slot this p (KRecall fid); ORecall fid nid res val]).
  assert (Ndf2 : NoDup (ids fr2)) by exact P7.
  assert (E4 : env0 h1 (h_tr h) w1 b4 ARecall fr2 cs2 A2).
  { constructor; auto.
    - unfold b4. cbn [set_vars b_h b_k bemit set_h set_k c_h]. change (c_h (b_k b3)) with (b_h b3). rewrite H3. reflexivity.
    - change (cs_ok (b_cs b3)). rewrite Cs3. exact On.
    - apply (rel_ext h); [reflexivity|cbn [h_nxt set_nxt h1]; lia|]. apply rel_new_vars; auto. }
  set (orig2 := if post then cx_orig c else Some (RP fid2 true)).
  set (over2 := if post && negb (meta_ge (v_status v1) MOverride) then cx_orig c else cx_over c).
  set (ifo := match find_iface v this with Some i0 => Some (if_obj i0) | None => None end).
  set (c2 := Ctx st (cx_iter c) (Some (vf_obj v)) ifo (Some fid2) this orig2 over2 None (negb post) None).
  set (f5 := fun x => vs_prev (v_prev v3) (vs_status (v_status v3) x)).
  destruct (hookfunc_spec m0 h slot pf P1 P2 P4 Em) as (v' & Hv' & Ev' & Hf).
  assert (Evv : v' = v). { apply (live_unique h v v' c a P2 L Hv' Ev'). } subst v'.
  destruct (stk_set_front _ n cs2 c2 On Sn eq_refl) as [O2 S2].
  assert (Lk4 : lk (b_vars b4) fid = Some v3).
  { cbn [b4 set_vars b_vars]. rewrite lk_cons. destruct (Nat.eqb_spec fid2 fid) as [C|_]; [|exact Lk3]. exfalso. apply Nf2. left. cbn. congruence. }
  assert (Su : setup_loop b4 fid2 pf slot this = Some (set_cs (upd_vars b4 fid2 f5) (cs_set_front (b_cs b3) c2), length cs2, Some (vf_orig v))).
  { rewrite (setup_recall b4 fid2 pf slot this n fid v3).
    - cbv zeta. change (cx_state n) with st. rewrite Rs2. change (b_cs b4) with (b_cs b3).
      cbn [n cx_orig cx_over cx_iter cx_vfn cx_iface cx_this cx_ifp cx_task cx_frame].
      assert (Eo1 : (if post then (if post then cx_orig c else None) else Some (RP fid2 true)) = orig2). { unfold orig2. destruct post; reflexivity. }
      assert (Eo2 : (if post && negb (meta_ge (v_status v3) MOverride) then (if post then cx_orig c else None) else cx_over c) = over2).
      { unfold over2. rewrite N1. destruct post; reflexivity. }
      rewrite Eo1, Eo2. unfold setup_tail. rewrite (hookfunc_ext h (b_h b4)).
      + rewrite Hf. cbn [cx_state cx_iter cx_ifp cx_call_orig cx_task]. fold ifo. fold c2. rewrite Cs3.
        destruct (stk_cons _ _ _ On Sn) as (D & _ & _). rewrite D. cbn [Nat.sub]. rewrite Nat.sub_0_r. reflexivity.
      + change (h_vfns (b_h b3) = h_vfns h). rewrite H3. reflexivity.
      + change (h_mans (b_h b3) = h_mans h). rewrite H3. reflexivity.
      + change (h_mshi (b_h b3) = h_mshi h). rewrite H3. reflexivity.
    - change (b_cs b4) with (b_cs b3). rewrite Cs3, (stk_front _ On), Sn. reflexivity.
    - exact Rs1.
    - reflexivity.
    - rewrite get_vars_lk. exact Lk4. }
  rewrite Su.
  set (b5 := upd_vars (set_cs (upd_vars b4 fid2 f5) (cs_set_front (b_cs b3) c2)) fid2 (vs_prev MIgnored)).
  set (v2 := Vars (v_status v1) MIgnored MIgnored (v_oret (a_v a)) (if meta_ge res MOverride then val else v_vret (a_v a))).
  set (a2 := AHook slot this p (orig_code h slot) true (presentb h slot this) (negb post) PPre None v2 0).
  assert (W1 : WH h1). { apply WH_nxt; [exact P2|unfold fid2; lia]. }
  assert (S3 : cs_ok (cs_set_front (b_cs b3) c2) /\ stk (cs_set_front (b_cs b3) c2) = c2 :: cs2). { rewrite Cs3. auto. }
  destruct S3 as [O3 S3].
  assert (E5 : env h1 (h_tr h) w1 b5 fid2 ARecall fr2 c2 cs2 A2).
  { constructor; auto. apply env0_own; auto. apply env0_cs; auto. apply env0_own; auto. }
  assert (Lk5 : lk (b_vars b5) fid2 = Some (Vars (v_status v3) MIgnored MIgnored 0 0)).
  { unfold b5, b4. cbn [upd_vars set_vars b_vars set_cs set_k bemit set_h]. rewrite !lk_upd, Nat.eqb_refl, lk_cons, Nat.eqb_refl. reflexivity. }
  assert (Rd5 : forall g o, g <> fid2 -> rd (b_vars b5) (Some (RP g o)) = rd (b_vars b3) (Some (RP g o))).
  { intros g o Ng. apply rd_other. intros g' o' Eg. injection Eg as <- <-. unfold b5, b4. cbn [upd_vars set_vars b_vars set_cs set_k bemit set_h].
    rewrite !lk_upd. destruct (Nat.eqb_spec g fid2); [contradiction|]. rewrite lk_cons. destruct (Nat.eqb_spec fid2 g); congruence. }
  assert (Chn : chain_of fid2 ARecall fr2 = fid2 :: chain_of fid aft fr) by reflexivity.
  assert (Old : forall g, In g (chain_of fid aft fr) -> g <> fid2).
  { intros g Hg ->. apply Nf2. destruct Hg as [<-|Hg]; [left; reflexivity|right]. destruct (is_rec aft); [apply chain_in; exact Hg|contradiction]. }
  pose proof (fc_orig _ _ _ _ _ _ Fc) as Po. pose proof (proj1 (fc_over _ _ _ _ _ _ Fc)) as Pv.
  assert (Rdo : rd (b_vars b5) (cx_orig c) = rd (b_vars b3) (cx_orig c)). { destruct (cx_orig c) as [[g o]|]; [|reflexivity]. apply Rd5. apply Old. exact Po. }
  assert (Rdv : rd (b_vars b5) (cx_over c) = rd (b_vars b3) (cx_over c)). { destruct (cx_over c) as [[g o]|]; [|reflexivity]. apply Rd5. apply Old. exact Pv. }
  assert (Pin : forall q, ptr_in (chain_of fid aft fr) q -> ptr_in (chain_of fid2 ARecall fr2) q /\ q <> Some (RP fid2 true)).
  { intros [[g o]|] Q; [|split; [exact I|discriminate]]. cbn in Q. split; [rewrite Chn; right; exact Q|]. intros C. injection C as -> ->. apply (Old fid2 Q). reflexivity. }
  assert (Lv2 : forall q r vv, live h1 v c2 (a_at q r vv a2)).
  { intros q r vv. constructor; auto. cbn [a_at a_go a2 a_seen a_this c2 cx_iface]. unfold ifo. rewrite <- Evp, (presentb_iface h v this P2 P3 Hv).
    destruct (find_iface v this) as [j|]; [exists j; auto|reflexivity]. }
  assert (St2 : hstat (HInfo pf this slot p (length cs2) (Some (vf_orig v)) PPre None) a2 (length cs2)).
  { constructor; auto. cbn [a2 a_addr hi_addr]. rewrite <- Evp, (orig_code_of h v P2 Hv). reflexivity. }
  assert (Fc2 : fcore h1 (b_vars b5) (chain_of fid2 ARecall fr2) fid2 c2 a2).
  { constructor; cbn [a2 a_alive a_callorig a_run a_v c2 cx_call_orig cx_orig cx_over cx_frame cx_state].
    - reflexivity.
    - unfold orig2. destruct post; [apply Pin; exact Po|left; reflexivity].
    - unfold orig2. destruct post; [discriminate|reflexivity].
    - unfold over2. destruct (post && negb (meta_ge (v_status v1) MOverride)); apply Pin; auto.
    - intros _. split; [reflexivity|]. unfold over2. destruct (post && negb (meta_ge (v_status v1) MOverride)) eqn:B; [|exact Nov].
      apply andb_true_iff in B. destruct B as [B1 B2]. apply negb_true_iff in B2. specialize (Or3 B2 B1). destruct (cx_orig c); [discriminate|]. discriminate.
    - eexists. split; [exact Lk5|]. unfold meta_eq, v2. cbn [v_status v_prev v_cur]. auto.
    - exists v. apply (Lv2 PPre None v2). }
  assert (Ov5 : ov_ok (b_vars b5) c2 (a_v a2)).
  { unfold ov_ok, a2, v2. cbn [a_v v_status v_vret c2 cx_over]. intros G. unfold over2. rewrite G, andb_false_r, Rdv. apply Ov3. exact G. }
  assert (Pos2 : pos_ok v c2 a2 post (Some (vp, nid)) \/ post = true).
  { destruct post eqn:Epo; [right; reflexivity|left]. destruct vp; cbn [pos_ok].
    - split; [right; split; reflexivity|exact It].
    - split; [right; split; reflexivity|]. intros _. exact (proj2 It). }
  set (ao := match a_phase a with
             | PPost => a_begin_post h fid2 (depth A2) (AHook slot this p (orig_code h slot) true (presentb h slot this) false PPre None v2 0) (a_run a) w1
             | _ => a_pre h fid2 (depth A2) (AHook slot this p (orig_code h slot) true (presentb h slot this) true PPre None v2 0) (a_run a) w1
             end).
  assert (Dp : depth A2 = length cs2) by apply (rel_depth _ _ _ _ _ _ Rel3).
  assert (Out : out_ok h1 (h_tr h) fid2 ARecall fr2 cs2 A2 (run_pre b5 fid2 (HInfo pf this slot p (length cs2) (Some (vf_orig v)) PPre None)) ao).
  { unfold ao. rewrite Dp, Er. unfold post in *. destruct (a_phase a) eqn:Pa; [|congruence|].
    - rewrite <- (a_pre_ext h h1) by reflexivity. apply (run_pre_spec h1 (h_tr h) w1 b5 fid2 ARecall fr2 c2 cs2 A2 _ a2); auto.
      intros _. exists v. split; [apply (Lv2 PPre None v2)|]. destruct Pos2 as [Q|Q]; [exact Q|discriminate].
    - (* the recalled function leaves its first loop at once *)
      set (c3 := cx_set_state c2 (run_state true vp)).
      destruct (stk_set (b_cs b5) c2 cs2 c3 O3 S3 eq_refl) as [O6 S6].
      set (b6 := set_cs b5 (cs_set (b_cs b5) (length cs2) c3)).
      assert (Cn : call_next b5 fid2 (HInfo pf this slot p (length cs2) (Some (vf_orig v)) PPre None) = Some (b6, None)).
      { unfold call_next. cbn [hi_ctx]. destruct (stk_cons _ _ _ O3 S3) as (_ & At & _).
        change (b_cs b5) with (cs_set_front (b_cs b3) c2). rewrite At. unfold get_next. change (cx_state c2) with st. unfold st.
        unfold b6, c3. destruct vp; reflexivity. }
      unfold run_pre. rewrite Cn, get_vars_lk. change (b_vars b6) with (b_vars b5). rewrite Lk5. cbn [hi_ctx].
      destruct (stk_cons _ _ _ O6 S6) as (_ & At6 & _). change (b_cs b6) with (cs_set (b_cs b5) (length cs2) c3). rewrite At6.
      change (cx_call_orig c3) with false. rewrite andb_false_r. cbn [v_vret].
      assert (E6 : env h1 (h_tr h) w1 b6 fid2 ARecall fr2 c3 cs2 A2).
      { constructor; auto. apply env0_cs; auto. apply (en_0 _ _ _ _ _ _ _ _ _ _ E5). }
      assert (Fc3 : fcore h1 (b_vars b6) (chain_of fid2 ARecall fr2) fid2 c3 a2).
      { apply (fcore_keeps h1 (b_vars b5) _ _ c2); auto; [apply keeps_state|discriminate]. }
      rewrite <- (a_begin_post_ext h h1) by reflexivity.
      apply (after_orig_spec h1 (h_tr h) w1 b6 fid2 ARecall fr2 c3 cs2 A2 _ a2 0 (v_oret (a_v a)) (Some (vp, nid)) W1 E6 St2 Fc3).
      + intros _. exists v. split.
        * destruct (Lv2 PPre None v2) as [L1 L2 L3 L4 L5]. constructor; auto.
        * destruct vp; cbn [pos_ok]; (split; [left; reflexivity|]); [exact It|intros _; exact (proj2 It)].
      + exact Ov5.
      + right. right. split; [|split].
        * unfold or_ok. intros G. change (rd (b_vars b5) (cx_orig c) = Some (v_oret (a_v a))). rewrite Rdo. apply Or3; auto.
        * change (cx_orig c <> Some (RP fid2 true)). apply Pin. exact Po.
        * reflexivity. }
  destruct (resume_spec h1 (h_tr h) fid2 ARecall fr2 cs2 A2 _ _ W1 Out) as (s & Ers & Sk).
  exists s. split; [exact Ers|]. rewrite (a_resume_ext h h1) in Sk by reflexivity. exact Sk.
Qed.
