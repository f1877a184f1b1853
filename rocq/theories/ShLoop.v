(** The activations of ShAbs.v agree with the trace: what an observer can see
    of a call determines the state of the activation. *)
From Coq Require Import List Bool Arith ZArith Lia.
From Verif Require Import Base ProtoModel ProtoProofs ShModel ShRun ShLists ShInv ShHooks ShAdd ShApi ShHist ShGood ShSpec ShView ShAbs ShRel ShCalls ShMoves ShChange ShFollow ShRefine ShTrace.
Import ListNotations.
Local Open Scope nat_scope.

(** ** Reading traces *)
Definition about (F : nat) (o : obs) : Prop :=
  match o with
  | OBegin f _ _ _ _ | OHandler f _ _ _ _ | OHandlerRet f _ _ _ | ORecall f _ _ _ | OOrig f _ _ _ | OOrigRet f _ | OPost f | OEnd f _ => f = F
  | _ => True
  end.
Lemma see_other : forall F G t l, Forall (about F) l -> G <> F -> see (l ++ t) G = see t G.
Proof.
  intros F G t l Fl N. induction Fl as [|o l A Fl IH]; [reflexivity|]. cbn [app see].
  destruct o; cbn [about] in A; auto; subst; rewrite (proj2 (Nat.eqb_neq _ _)) by congruence; auto.
Qed.
Definition silent (o : obs) : Prop :=
  match o with
  | OBegin _ _ _ _ _ | OHandler _ _ _ _ _ | OHandlerRet _ _ _ _ | ORecall _ _ _ _ | OOrig _ _ _ _ | OOrigRet _ _ | OPost _ => False
  | _ => True
  end.
Lemma see_silent : forall G t l, Forall silent l -> see (l ++ t) G = see t G.
Proof. intros G t l Fl. induction Fl as [|o l A Fl IH]; [reflexivity|]. cbn [app see]. destruct o; cbn [silent] in A; auto; contradiction. Qed.

Lemma max_res_sup : forall l, meta_ge (max_res l) MSupercede = superceded l.
Proof.
  induction l as [|[r z] l IH]; [reflexivity|]. cbn [max_res].
  change (superceded ((r, z) :: l)) with ((match r with MSupercede => true | _ => false end) || superceded l). rewrite <- IH.
  destruct r, (max_res l); reflexivity.
Qed.
Lemma max_res_over : forall l, meta_ge (max_res l) MOverride = match last_override l with Some _ => true | None => false end.
Proof.
  induction l as [|[r z] l IH]; [reflexivity|]. cbn [max_res last_override]. destruct r, (max_res l), (last_override l); cbn in *; congruence.
Qed.
Lemma sup_app : forall l l', superceded (l ++ l') = superceded l || superceded l'.
Proof. intros. apply existsb_app. Qed.
Lemma ge_sup_over : forall m, meta_ge m MOverride = false -> meta_ge m MSupercede = false.
Proof. now intros []. Qed.

(** ** The rules for observations *)
Definition in_loop (v : view) : Prop := vw_post v = true \/ vw_norig v = 0.
Definition obs_ok (m0 : Z -> Z) (h : hs) (t : list obs) (o : obs) : Prop :=
  match o with
  | OHandler F n hd ip p =>
      let v := see t F in
      vw_ign v = false /\ vw_rec v = false /\ in_loop v /\ p = vw_param v /\ ~ In n (vw_ran v) /\
      exists vp k, In k (installed h (vw_slot v) (if vp : bool then 0%Z else vw_this v) (vw_post v)) /\
        hk_nid k = n /\ hk_handler k = hd /\ hk_paused k = false /\ ip = (vw_this v - hk_offs k)%Z /\
        (forall k', In k' (installed h (vw_slot v) (vw_this v) (vw_post v)) -> In (hk_nid k') (vw_ran v) -> vp = true \/ hk_nid k' < n) /\
        (forall k', In k' (installed h (vw_slot v) 0 (vw_post v)) -> In (hk_nid k') (vw_ran v) -> vp = true /\ hk_nid k' < n)
  | OHandlerRet F n r z => hd_error (vw_ran (see t F)) = Some n /\ in_loop (see t F)
  | ORecall F n r z => hd_error (vw_ran (see t F)) = Some n /\ in_loop (see t F) /\ vw_rec (see t F) = false
  | OOrigRet F z => vw_post (see t F) = false /\ vw_norig (see t F) = 1 /\ superceded (vw_res1 (see t F)) = false
  | OOrig F c this p =>
      let v := see t F in
      vw_post v = false /\ vw_norig v = 0 /\ superceded (vw_res1 v) = false /\ vw_rec v = false /\
      c = COrig (m0 (vw_slot v)) /\ this = vw_this v /\ p = vw_param v
  | OPost F =>
      let v := see t F in
      vw_norig v = (if superceded (vw_res1 v) then 0 else 1) /\ (superceded (vw_res1 v) = false -> vw_orig v <> None) /\
      (vw_post v = false \/ exists s a p G t', t = OBegin F s a p (KRecall G) :: t')
  | OEnd F z =>
      let v := see t F in
      vw_post v = true /\ match last_override (vw_res v) with Some x => z = x | None => vw_orig v = Some z end
  | OBegin F s a p (KRecall G) =>
      s = vw_slot (see t G) /\ a = vw_this (see t G) /\ exists n r z t', t = ORecall G n r z :: t'
  | _ => True
  end.
Definition ok_world (m0 : Z -> Z) (h : hs) (t0 : list obs) (w : world) : Prop :=
  forall t2 o t1, w_obs w = t2 ++ o :: t1 -> obs_ok m0 h (t1 ++ t0) o.
Lemma ok_world_nil : forall m0 h t0 p, ok_world m0 h t0 (World p []).
Proof. intros m0 h t0 p t2 o t1 E. destruct t2; discriminate. Qed.
Lemma ok_emit : forall m0 h t0 w o, ok_world m0 h t0 w -> obs_ok m0 h (w_obs w ++ t0) o -> ok_world m0 h t0 (wemit o w).
Proof.
  intros m0 h t0 w o W O t2 o' t1 E. destruct t2 as [|x t2]; cbn [wemit w_obs app] in E; injection E as E1 E2; subst; auto.
  eapply W; eauto.
Qed.
Lemma close_obs : forall d w, exists l, w_obs (close d w) = l ++ w_obs w /\ Forall (fun o => exists p x, o = OReady p x) l.
Proof.
  intros d w. unfold close. destruct (d =? 0); [|exists []; auto].
  destruct (resolve_pending (w_pend w)) as [r o] eqn:E. exists (rev o). split; [reflexivity|].
  apply Forall_rev. revert r o E. induction (w_pend w) as [|x l IH]; intros r o E; cbn in E; [injection E as <- <-; constructor|].
  destruct (resolve_pending l) as [r' o']. destruct (pd_deact x); injection E as <- <-; [constructor; eauto|eauto].
Qed.
Lemma ok_close : forall m0 h t0 d w, ok_world m0 h t0 w -> ok_world m0 h t0 (close d w).
Proof.
  intros m0 h t0 d w W t2 o t1 E. destruct (close_obs d w) as (l & El & Fl). rewrite El in E.
  revert E. clear El. revert t2. induction Fl as [|x l (p & y & ->) Fl IH]; intros t2 E; [eapply W; eauto|].
  destruct t2 as [|x2 t2]; cbn [app] in E; injection E as E1 E2; [subst o; exact I|]. eauto.
Qed.

(** ** Frames and the trace *)
Record base (m0 : Z -> Z) (t : list obs) (F : nat) (susp : bool) (a : ahook) : Prop := {
  b_slot : vw_slot (see t F) = a_slot a;
  b_this : vw_this (see t F) = a_this a;
  b_param : vw_param (see t F) = a_param a;
  b_nz : a_this a <> 0%Z;
  b_addr : a_addr a = COrig (m0 (a_slot a));
  b_status : v_status (a_v a) = max_res (vw_res (see t F));
  b_prev : v_prev (a_v a) = vw_prev (see t F);
  b_over : susp = false -> forall z, last_override (vw_res (see t F)) = Some z -> v_vret (a_v a) = z;
  b_orig : forall z, vw_orig (see t F) = Some z -> v_oret (a_v a) = z;
  b_ign : vw_ign (see t F) = true -> a_alive a = false;
  b_rec : vw_rec (see t F) = true -> a_alive a = false /\ (susp = false -> v_status (a_v a) = MSupercede);
  b_susp : susp = true -> vw_rec (see t F) = true;
  b_post0 : vw_post (see t F) = false -> vw_res2 (see t F) = [] /\ vw_pst (see t F) = [] }.

Record cur (h : hs) (t : list obs) (F : nat) (a : ahook) (post : bool) (from : option (bool * nat)) : Prop := {
  c_post : vw_post (see t F) = post;
  c_lt : forall m, In m (vw_ran (see t F)) -> m < h_nxt h;
  c_dup : NoDup (vw_ran (see t F));
  c_none : from = None -> vw_ran (see t F) = [];
  c_hd : forall vp n, from = Some (vp, n) -> hd_error (vw_ran (see t F)) = Some n;
  c_own : forall k vp n, from = Some (vp, n) -> In k (installed h (a_slot a) (a_this a) post) -> In (hk_nid k) (vw_ran (see t F)) ->
    vp = true \/ hk_nid k <= n;
  c_all : forall k vp n, from = Some (vp, n) -> In k (installed h (a_slot a) 0 post) -> In (hk_nid k) (vw_ran (see t F)) ->
    vp = true /\ hk_nid k <= n;
  c_seen : forall k vp n, from = Some (vp, n) -> In k (installed h (a_slot a) (if vp : bool then 0%Z else a_this a) post) -> hk_nid k = n ->
    vw_rec (see t F) = false -> a_alive a = true /\ (vp = false -> a_seen a = true);
  c_at : forall k (vp : bool) n s x p, from = Some (vp, n) -> In k (installed h s x p) -> hk_nid k = n ->
    s = a_slot a /\ x = (if vp then 0%Z else a_this a) /\ p = post }.

(** Before the original function; while it runs; after it *)
Definition orig_done (v : view) : Prop :=
  vw_norig v = (if superceded (vw_res1 v) then 0 else 1) /\ (superceded (vw_res1 v) = false -> vw_orig v <> None).
Definition phase_ok (h : hs) (t : list obs) (F : nat) (a : ahook) : Prop :=
  match a_phase a with
  | PPre => a_run a <> None /\ cur h t F a false (a_run a) /\ vw_norig (see t F) = 0 /\ vw_orig (see t F) = None /\ a_callorig a = true
  | POrig => a_run a = None /\ vw_post (see t F) = false /\ vw_norig (see t F) = 1 /\ superceded (vw_res1 (see t F)) = false
  | PPost => a_run a <> None /\ cur h t F a true (a_run a) /\ orig_done (see t F)
  end.
Definition frame_ok (m0 : Z -> Z) (h : hs) (t : list obs) (F : nat) (susp : bool) (a : ahook) : Prop :=
  base m0 t F susp a /\ phase_ok h t F a.
Fixpoint stack_ok (m0 : Z -> Z) (h : hs) (t : list obs) (susp : bool) (A : list aframe) : Prop :=
  match A with
  | [] => susp = false
  | f :: A' =>
      match af_hook f with
      | Some a => frame_ok m0 h t (af_id f) susp a /\ (susp = true -> a_run a <> None)
      | None => susp = false
      end /\ stack_ok m0 h t (is_rec (af_after f)) A'
  end.

(** Only what is seen of the frame matters. *)
Lemma base_see : forall m0 t t' F susp a, see t' F = see t F -> base m0 t F susp a -> base m0 t' F susp a.
Proof. intros m0 t t' F susp a E [B1 B2 B3 B4 B5 B6 B7 B8 B9 B10 B11 B12 B13]. constructor; rewrite ?E; auto. Qed.
Lemma cur_see : forall h t t' F a post from, see t' F = see t F -> cur h t F a post from -> cur h t' F a post from.
Proof. intros h t t' F a post from E [C1 C2 C3 C4 C5 C6 C7 C8 C9]. constructor; rewrite ?E; auto. Qed.
Lemma phase_see : forall h t t' F a, see t' F = see t F -> phase_ok h t F a -> phase_ok h t' F a.
Proof.
  intros h t t' F a E P. unfold phase_ok in *. destruct (a_phase a); rewrite ?E; intuition eauto using cur_see.
Qed.
Lemma stack_see : forall m0 h t t' A susp, (forall G, In G (map af_id A) -> see t' G = see t G) ->
  stack_ok m0 h t susp A -> stack_ok m0 h t' susp A.
Proof.
  intros m0 h t t' A. induction A as [|f A IH]; intros susp E S; [exact S|]. cbn [stack_ok map] in *.
  destruct S as [S1 S2]. split.
  - destruct (af_hook f) as [a|]; [|exact S1]. destruct S1 as [[B P] Q]. split; [|exact Q]. assert (Ef : see t' (af_id f) = see t (af_id f)) by (apply E; now left).
    split; [eapply base_see|eapply phase_see]; eauto.
  - apply IH; auto. intros G I. apply E. now right.
Qed.

Lemma cur_a : forall h t F a a' post from, a_slot a' = a_slot a -> a_this a' = a_this a -> a_alive a' = a_alive a -> a_seen a' = a_seen a ->
  cur h t F a post from -> cur h t F a' post from.
Proof. intros h t F a a' post from E1 E2 E3 E4 [C1 C2 C3 C4 C5 C6 C7 C8 C9]. constructor; rewrite ?E1, ?E2, ?E3, ?E4; auto. Qed.

Lemma frame_setcur : forall m0 h t F susp a m, frame_ok m0 h t F susp a -> frame_ok m0 h t F susp (a_with_v (vs_cur m (a_v a)) a).
Proof.
  intros m0 h t F susp a m [B P]. split.
  - destruct B as [B1 B2 B3 B4 B5 B6 B7 B8 B9 B10 B11 B12 B13].
    constructor; cbn [a_with_v a_slot a_this a_param a_addr a_v a_alive vs_cur v_status v_prev v_vret v_oret]; auto.
  - unfold phase_ok in *. cbn [a_with_v a_phase a_run a_callorig].
    assert (C : forall post, cur h t F a post (a_run a) -> cur h t F (a_with_v (vs_cur m (a_v a)) a) post (a_run a)) by (intros post; apply cur_a; reflexivity).
    destruct (a_phase a); intuition auto.
Qed.

(** *** Choosing a hook *)
Lemma next_in : forall h a post from vp k, next h a post from = Some (vp, k) ->
  hk_paused k = false /\ a_alive a = true /\ (vp = false -> a_seen a = true) /\
  In k (installed h (a_slot a) (if vp then 0%Z else a_this a) post) /\
  match from with
  | None => True
  | Some (false, n) => vp = true \/ n < hk_nid k
  | Some (true, n) => vp = true /\ n < hk_nid k
  end.
Proof.
  intros h a post from vp k E. unfold next in E. apply find_some in E. destruct E as [I P]. cbn [snd] in P.
  apply negb_true_iff in P. split; [exact P|]. unfold todo in I. destruct (a_alive a); [|contradiction]. split; [reflexivity|].
  set (own := if a_seen a then _ else _) in I.
  assert (Ho : forall x, In x own -> a_seen a = true /\ In x (installed h (a_slot a) (a_this a) post)) by (intros x; unfold own; destruct (a_seen a); [auto|contradiction]).
  unfold later in I. destruct from as [[[|] n]|].
  - apply in_map_iff in I. destruct I as (y & Ey & I). injection Ey as <- <-. apply filter_In in I. destruct I as [I L].
    apply Nat.ltb_lt in L. repeat split; auto. discriminate.
  - apply in_app_or in I. destruct I as [I|I]; apply in_map_iff in I; destruct I as (y & Ey & I); injection Ey as <- <-.
    + apply filter_In in I. destruct I as [I L]. apply Nat.ltb_lt in L. destruct (Ho y I). auto.
    + repeat split; auto. discriminate.
  - apply in_app_or in I. destruct I as [I|I]; apply in_map_iff in I; destruct I as (y & Ey & I); injection Ey as <- <-.
    + destruct (Ho y I). auto.
    + repeat split; auto. discriminate.
Qed.

Lemma in_hooked : forall h slot adj post k, In k (installed h slot adj post) -> hookedb h slot = true.
Proof.
  intros h slot adj post k I'. apply in_installed in I'. destruct I' as (v & i & Hv & Ev & _).
  unfold hookedb. apply existsb_exists. exists v. split; [exact Hv|]. now apply Z.eqb_eq.
Qed.
Lemma in_present : forall h slot adj post k, In k (installed h slot adj post) -> presentb h slot adj = true.
Proof.
  intros h slot adj post k I'. unfold presentb. destruct post.
  - destruct (installed h slot adj false ++ installed h slot adj true) eqn:E; [|reflexivity]. apply app_eq_nil in E. destruct E as [_ E]. rewrite E in I'. contradiction.
  - destruct (installed h slot adj false); [contradiction|reflexivity].
Qed.

(** ** One frame *)
Definition out_w (o : aout) : world := match o with AStop _ w | AFin _ w => w end.
Definition ok_out (m0 : Z -> Z) (h : hs) (t0 : list obs) (F : nat) (w : world) (o : aout) : Prop :=
  ok_world m0 h t0 (out_w o) /\ (exists l, w_obs (out_w o) = l ++ w_obs w /\ Forall (about F) l) /\
  match o with AStop a w' => frame_ok m0 h (w_obs w' ++ t0) F false a | AFin _ _ => True end.

Lemma ok_out_emit : forall m0 h t0 F w o x, about F o -> ok_out m0 h t0 F (wemit o w) x -> ok_out m0 h t0 F w x.
Proof.
  intros m0 h t0 F w o x Ab (O1 & (l & E & Fl) & O3). split; [exact O1|]. split; [|exact O3].
  exists (l ++ [o]). rewrite E. cbn [wemit w_obs]. rewrite <- app_assoc. split; [reflexivity|].
  apply Forall_app. split; auto.
Qed.

(** What is known between two handlers of a loop *)
Definition loop_data (t : list obs) (F : nat) (a : ahook) (post : bool) : Prop :=
  if post then orig_done (see t F)
  else vw_norig (see t F) = 0 /\ vw_orig (see t F) = None /\ a_callorig a = true.

Lemma see_top : forall o t F v, (forall G, G = F -> see (o :: t) G = v) -> see (o :: t) F = v.
Proof. auto. Qed.
Ltac see1 := cbn [see wemit w_obs app]; rewrite Nat.eqb_refl.
Lemma ran_call : forall n v, vw_ran (vw_call n v) = n :: vw_ran v.
Proof. intros n v. unfold vw_ran, vw_call. destruct (vw_post v) eqn:E; cbn [vw_post]; reflexivity. Qed.
Lemma call_rest : forall n v, vw_slot (vw_call n v) = vw_slot v /\ vw_this (vw_call n v) = vw_this v /\ vw_param (vw_call n v) = vw_param v /\
  vw_post (vw_call n v) = vw_post v /\ vw_res (vw_call n v) = vw_res v /\ vw_prev (vw_call n v) = vw_prev v /\ vw_orig (vw_call n v) = vw_orig v /\
  vw_ign (vw_call n v) = vw_ign v /\ vw_rec (vw_call n v) = vw_rec v /\ vw_norig (vw_call n v) = vw_norig v /\
  vw_res1 (vw_call n v) = vw_res1 v /\ vw_res2 (vw_call n v) = vw_res2 v /\ (vw_post v = false -> vw_pst (vw_call n v) = vw_pst v).
Proof. intros n v. unfold vw_res, vw_call. destruct (vw_post v) eqn:E; cbn; repeat apply conj; auto; discriminate. Qed.

Section Frame.
Variables (m0 : Z -> Z) (h : hs) (t0 : list obs).
Hypothesis W : WH h.
Hypothesis Hnid : forall s a p k, hook_at h s a p k -> hk_nid k < h_nxt h.

Lemma start_ok : forall F a post from w x, ok_world m0 h t0 w ->
  base m0 (w_obs w ++ t0) F false a -> cur h (w_obs w ++ t0) F a post from -> loop_data (w_obs w ++ t0) F a post ->
  next h a post from = Some x -> ok_out m0 h t0 F w (a_start F a (if post then PPost else PPre) x w).
Proof.
  intros F a post from w [vp k] OW B C D N. destruct (next_in h a post from vp k N) as (Np & Na & Ns & Ni & Nf).
  set (t := w_obs w ++ t0) in *.
  assert (Hr : vw_rec (see t F) = false). { destruct (vw_rec (see t F)) eqn:E; [|reflexivity]. destruct (b_rec _ _ _ _ _ B E). congruence. }
  assert (Hi : vw_ign (see t F) = false). { destruct (vw_ign (see t F)) eqn:E; [|reflexivity]. pose proof (b_ign _ _ _ _ _ B E). congruence. }
  assert (Hown : forall k', In k' (installed h (a_slot a) (a_this a) post) -> In (hk_nid k') (vw_ran (see t F)) -> vp = true \/ hk_nid k' < hk_nid k).
  { intros k' I' R'. destruct from as [[vp0 n0]|]; [|rewrite (c_none _ _ _ _ _ _ C eq_refl) in R'; contradiction].
    destruct (c_own _ _ _ _ _ _ C k' vp0 n0 eq_refl I' R') as [->|L]; [tauto|]. destruct vp0; [tauto|]. destruct Nf; [tauto|right; lia]. }
  assert (Hall : forall k', In k' (installed h (a_slot a) 0 post) -> In (hk_nid k') (vw_ran (see t F)) -> vp = true /\ hk_nid k' < hk_nid k).
  { intros k' I' R'. destruct from as [[vp0 n0]|]; [|rewrite (c_none _ _ _ _ _ _ C eq_refl) in R'; contradiction].
    destruct (c_all _ _ _ _ _ _ C k' vp0 n0 eq_refl I' R') as [-> L]. destruct Nf; split; [tauto|lia]. }
  assert (Hnew : ~ In (hk_nid k) (vw_ran (see t F))).
  { intros I'. destruct vp; [destruct (Hall k Ni I'); lia|destruct (Hown k Ni I'); [discriminate|lia]]. }
  unfold a_start. cbn [fst snd].
  set (o := OHandler F (hk_nid k) (hk_handler k) (a_this a - hk_offs k) (a_param a)).
  split; [|split].
  - cbn [out_w]. apply ok_emit; [exact OW|]. fold t. cbn [obs_ok o].
    rewrite (b_slot _ _ _ _ _ B), (b_this _ _ _ _ _ B), (b_param _ _ _ _ _ B), (c_post _ _ _ _ _ _ C).
    split; [exact Hi|]. split; [exact Hr|]. split; [unfold in_loop; rewrite (c_post _ _ _ _ _ _ C); unfold loop_data in D; destruct post; [now left|right; apply D]|].
    split; [reflexivity|]. split; [exact Hnew|]. exists vp, k. auto 10.
  - exists [o]. split; [reflexivity|]. constructor; [reflexivity|constructor].
  - cbn [out_w wemit w_obs app]. fold t.
    assert (Es : see (o :: t) F = vw_call (hk_nid k) (see t F)) by (unfold o; now see1).
    destruct (call_rest (hk_nid k) (see t F)) as (R1 & R2 & R3 & R4 & R5 & R6 & R7 & R8 & R9 & R10 & R11 & R12 & R13).
    split.
    + destruct B as [B1 B2 B3 B4 B5 B6 B7 B8 B9 B10 B11 B12 B13].
      constructor; rewrite ?Es, ?R1, ?R2, ?R3, ?R4, ?R5, ?R6, ?R7, ?R8, ?R9; cbn [a_go a_slot a_this a_param a_addr a_v a_alive vs_cur v_status v_prev v_vret v_oret]; auto.
      intros P. rewrite R12, (R13 P). auto.
    + assert (C' : cur h (o :: t) F (a_go (a_this a - hk_offs k) (if post then PPost else PPre) (Some (vp, hk_nid k)) (vs_cur MIgnored (a_v a)) a) post (Some (vp, hk_nid k))).
      { constructor; rewrite ?Es, ?ran_call, ?R4; cbn [a_go a_slot a_this].
        - apply C.
        - intros m [<-|I']; [eapply Hnid; apply in_installed; eauto|eapply c_lt; eauto].
        - constructor; [exact Hnew|apply C].
        - discriminate.
        - intros vp' n E. injection E as <- <-. reflexivity.
        - intros k' vp' n E I' R'. injection E as <- <-. destruct R' as [Eq|R'].
          + right. lia.
          + destruct (Hown k' I' R'); [tauto|right; lia].
        - intros k' vp' n E I' R'. injection E as <- <-. destruct R' as [Eq|R'].
          + split; [|lia]. destruct vp; [reflexivity|]. exfalso. apply in_installed in I', Ni.
            destruct (hook_at_nid_eq h _ _ _ _ _ _ _ _ W Ni I' Eq) as (_ & E & _). apply (b_nz _ _ _ _ _ B E).
          + destruct (Hall k' I' R'). split; [tauto|lia].
        - intros k' vp' n E I' En _. injection E as <- <-. cbn [a_alive a_seen]. split; [exact Na|exact Ns].
        - intros k' vp' n s x p E I' En. injection E as <- <-. cbn [a_slot a_this]. apply in_installed in I', Ni.
          destruct (hook_at_nid_eq h _ _ _ _ _ _ _ _ W Ni I' (eq_sym En)) as (<- & <- & <- & _). auto. }
      unfold phase_ok. destruct post; cbn [a_go a_phase a_run a_callorig loop_data] in *.
      * split; [discriminate|]. split; [exact C'|]. unfold orig_done in *. rewrite Es, R10, R11, R7. exact D.
      * split; [discriminate|]. split; [exact C'|]. rewrite Es, R10, R7. exact D.
Qed.

Lemma close_see : forall d w G, see (w_obs (close d w) ++ t0) G = see (w_obs w ++ t0) G.
Proof.
  intros d w G. destruct (close_obs d w) as (l & -> & Fl). rewrite <- app_assoc. apply see_silent.
  eapply Forall_impl; [|exact Fl]. intros o (p & y & ->). exact I.
Qed.
Lemma post_ok : forall F d a from w, ok_world m0 h t0 w ->
  base m0 (w_obs w ++ t0) F false a -> cur h (w_obs w ++ t0) F a true from -> orig_done (see (w_obs w ++ t0) F) ->
  ok_out m0 h t0 F w (a_post h F d a from w).
Proof.
  intros F d a from w OW B C D. unfold a_post. destruct (next h a true from) as [x|] eqn:N.
  - apply (start_ok F a true from w x); auto.
  - split; [|split; [|exact I]].
    + cbn [out_w]. apply ok_emit; [now apply ok_close|]. cbn [obs_ok]. rewrite close_see.
      split; [apply C|]. unfold a_value. rewrite (b_status _ _ _ _ _ B), max_res_over.
      destruct (last_override (vw_res (see (w_obs w ++ t0) F))) as [z|] eqn:E.
      * apply (b_over _ _ _ _ _ B eq_refl z E).
      * destruct D as [_ D]. destruct (vw_orig (see (w_obs w ++ t0) F)) as [z|] eqn:Eo.
        -- rewrite (b_orig _ _ _ _ _ B z Eo). reflexivity.
        -- exfalso. apply D; [|reflexivity]. pose proof (max_res_over (vw_res (see (w_obs w ++ t0) F))) as M.
           rewrite E in M. apply ge_sup_over in M. rewrite max_res_sup in M. unfold vw_res in M. rewrite sup_app in M.
           apply orb_false_iff in M. tauto.
    + destruct (close_obs d w) as (l & El & Fl). exists (OEnd F (a_value (a_v a)) :: l). cbn [out_w wemit w_obs]. rewrite El.
      split; [reflexivity|]. constructor; [reflexivity|]. eapply Forall_impl; [|exact Fl]. intros o (p & y & ->). exact I.
Qed.

(** [from] with a loop that has not begun yet or (after a recall) goes on *)
Lemma begin_post_ok : forall F d a from w, ok_world m0 h t0 w ->
  base m0 (w_obs w ++ t0) F false a ->
  (vw_post (see (w_obs w ++ t0) F) = false /\ from = None \/
   cur h (w_obs w ++ t0) F a true from /\ exists s x p G t', w_obs w ++ t0 = OBegin F s x p (KRecall G) :: t') ->
  orig_done (see (w_obs w ++ t0) F) -> ok_out m0 h t0 F w (a_begin_post h F d a from w).
Proof.
  intros F d a from w OW B C D. unfold a_begin_post. apply (ok_out_emit m0 h t0 F w (OPost F)); [reflexivity|].
  set (t := w_obs w ++ t0) in *.
  assert (Es : see (w_obs (wemit (OPost F) w) ++ t0) F = vw_enter_post (see t F)) by (now see1).
  apply post_ok.
  - apply ok_emit; auto. destruct D as [D1 D2]. cbn [obs_ok]. fold t. split; [exact D1|]. split; [exact D2|]. destruct C as [[C _]|[_ C]]; auto.
  - destruct B as [B1 B2 B3 B4 B5 B6 B7 B8 B9 B10 B11 B12 B13].
    constructor; rewrite ?Es; cbn [a_with_v a_slot a_this a_param a_addr a_v a_alive vs_prev v_status v_prev v_vret v_oret vw_enter_post vw_slot vw_this vw_param vw_prev vw_orig vw_ign vw_rec vw_post vw_res2 vw_pst]; auto.
    discriminate.
  - destruct C as [[P ->]|[C _]].
    + destruct (b_post0 _ _ _ _ _ B P) as [_ E]. constructor; rewrite ?Es; cbn [vw_ran vw_enter_post vw_post vw_pst]; rewrite ?E; try discriminate; try contradiction; auto.
      constructor.
    + destruct C as [C1 C2 C3 C4 C5 C6 C7 C8 C9]. unfold vw_ran in *. rewrite C1 in *.
      constructor; rewrite ?Es; cbn [a_with_v a_slot a_this vw_ran vw_enter_post vw_post vw_pst]; auto.
  - rewrite Es. exact D.
Qed.

Lemma pre_ok : forall F d a from w, ok_world m0 h t0 w ->
  base m0 (w_obs w ++ t0) F false a -> cur h (w_obs w ++ t0) F a false from -> loop_data (w_obs w ++ t0) F a false ->
  ok_out m0 h t0 F w (a_pre h F d a from w).
Proof.
  intros F d a from w OW B C D. unfold a_pre. destruct (next h a false from) as [x|] eqn:N.
  - apply (start_ok F a false from w x); auto.
  - set (t := w_obs w ++ t0) in *. destruct D as (D1 & D2 & D3).
    assert (P0 := c_post _ _ _ _ _ _ C). destruct (b_post0 _ _ _ _ _ B P0) as [P1 P2].
    assert (Es : meta_ge (v_status (a_v a)) MSupercede = superceded (vw_res1 (see t F))).
    { rewrite (b_status _ _ _ _ _ B), max_res_sup. unfold vw_res. rewrite P1. reflexivity. }
    rewrite D3, Es, andb_true_r. destruct (superceded (vw_res1 (see t F))) eqn:Sup; cbn [negb].
    + apply begin_post_ok; auto. fold t. unfold orig_done. rewrite Sup. split; [exact D1|discriminate].
    + assert (Hr : vw_rec (see t F) = false).
      { destruct (vw_rec (see t F)) eqn:E; [|reflexivity]. destruct (b_rec _ _ _ _ _ B E) as [_ E2]. rewrite (E2 eq_refl) in Es. discriminate Es. }
      set (o := OOrig F (a_addr a) (a_this a) (a_param a)).
      assert (Ev : see (o :: t) F = vw_origcall (see t F)) by (unfold o; now see1).
      split; [|split].
      * cbn [out_w]. apply ok_emit; [exact OW|]. fold t. cbn [obs_ok o].
        rewrite (b_slot _ _ _ _ _ B), (b_this _ _ _ _ _ B), (b_param _ _ _ _ _ B), (b_addr _ _ _ _ _ B). auto 10.
      * exists [o]. split; [reflexivity|]. constructor; [reflexivity|constructor].
      * cbn [out_w wemit w_obs app]. fold t. split.
        -- destruct B as [B1 B2 B3 B4 B5 B6 B7 B8 B9 B10 B11 B12 B13].
           constructor; rewrite ?Ev; cbn [a_at a_go a_slot a_this a_param a_addr a_v a_alive vs_prev v_status v_prev v_vret v_oret vw_origcall vw_slot vw_this vw_param vw_prev vw_orig vw_ign vw_rec vw_post vw_res2 vw_pst]; auto.
        -- unfold phase_ok. cbn [a_at a_go a_phase a_run]. rewrite Ev. cbn [vw_origcall vw_post vw_norig vw_res1].
           rewrite D1. auto.
Qed.

Lemma result_rest : forall r z v, vw_slot (vw_result r z v) = vw_slot v /\ vw_this (vw_result r z v) = vw_this v /\ vw_param (vw_result r z v) = vw_param v /\
  vw_post (vw_result r z v) = vw_post v /\ vw_prev (vw_result r z v) = r /\ vw_orig (vw_result r z v) = vw_orig v /\
  vw_ign (vw_result r z v) = vw_ign v /\ vw_rec (vw_result r z v) = vw_rec v /\ vw_norig (vw_result r z v) = vw_norig v /\
  vw_ran (vw_result r z v) = vw_ran v /\ vw_pst (vw_result r z v) = vw_pst v /\
  (vw_post v = true -> vw_res1 (vw_result r z v) = vw_res1 v) /\ (vw_post v = false -> vw_res2 (vw_result r z v) = vw_res2 v) /\
  (vw_post v = true \/ vw_res2 v = [] -> vw_res (vw_result r z v) = (r, z) :: vw_res v).
Proof.
  intros r z v. unfold vw_res, vw_result, vw_ran. destruct (vw_post v) eqn:E; cbn; repeat apply conj; auto; try discriminate.
  intros [D|D]; [discriminate|]. now rewrite D.
Qed.
Lemma cur_result : forall t t' F a a' post from r z, see t' F = vw_result r z (see t F) -> a_slot a' = a_slot a -> a_this a' = a_this a ->
  a_alive a' = a_alive a -> a_seen a' = a_seen a -> cur h t F a post from -> cur h t' F a' post from.
Proof.
  intros t t' F a a' post from r z E E1 E2 E3 E4 [C1 C2 C3 C4 C5 C6 C7 C8 C9].
  destruct (result_rest r z (see t F)) as (R1 & R2 & R3 & R4 & R5 & R6 & R7 & R8 & R9 & R10 & R11 & R12 & R13 & R14).
  constructor; rewrite ?E, ?R4, ?R8, ?R10, ?E1, ?E2, ?E3, ?E4; auto.
Qed.
Lemma base_result : forall t t' F susp a c z, see t' F = vw_result c z (see t F) ->
  v_cur (a_v a) = c -> (susp = true -> c = MSupercede) -> base m0 t F susp a ->
  base m0 t' F false (a_with_v (v_done z (a_v a)) a).
Proof.
  intros t t' F susp a c z Es Ec Sc B. set (v := see t F) in *.
  destruct (result_rest c z v) as (R1 & R2 & R3 & R4 & R5 & R6 & R7 & R8 & R9 & R10 & R11 & R12 & R13 & R14).
  assert (R15 : vw_res (vw_result c z v) = (c, z) :: vw_res v).
  { apply R14. destruct (vw_post v) eqn:P; [now left|right]. exact (proj1 (b_post0 _ _ _ _ _ B P)). }
  destruct B as [B1 B2 B3 B4 B5 B6 B7 B8 B9 B10 B11 B12 B13]. fold v in B1, B2, B3, B6, B7, B8, B9, B10, B11, B12, B13.
  constructor; rewrite ?Es, ?R1, ?R2, ?R3, ?R4, ?R5, ?R6, ?R7, ?R8, ?R11, ?R15;
    cbn [a_with_v a_slot a_this a_param a_addr a_v a_alive v_done v_status v_prev v_vret v_oret]; auto.
  - rewrite Ec, B6. cbn [max_res]. reflexivity.
  - intros _ y. rewrite Ec. cbn [last_override]. destruct c; cbn [meta_ge meta_num Nat.leb]; try congruence;
      (destruct susp; [discriminate (Sc eq_refl)|]; auto).
  - intros Hr. destruct (B11 Hr) as [Ha Hs]. split; [exact Ha|]. intros _. rewrite Ec. destruct susp; [rewrite (Sc eq_refl); destruct (v_status (a_v a)); reflexivity|].
    rewrite (Hs eq_refl). destruct c; reflexivity.
  - discriminate.
  - intros P. rewrite R13 by exact P. apply B13. exact P.
Qed.
Lemma done_ok : forall F d susp a z w, ok_world m0 h t0 w -> frame_ok m0 h (w_obs w ++ t0) F susp a -> a_run a <> None ->
  (susp = true -> v_cur (a_v a) = MSupercede) -> ok_out m0 h t0 F w (a_done h F d a z w).
Proof.
  intros F d susp a z w OW [B P] Hr Sc. unfold a_done. destruct (a_run a) as [[vp n]|] eqn:Er; [|congruence].
  set (t := w_obs w ++ t0) in *. set (c := v_cur (a_v a)) in *. set (o := OHandlerRet F n c z).
  assert (Es : see (o :: t) F = vw_result c z (see t F)) by (unfold o; now see1).
  destruct (result_rest c z (see t F)) as (R1 & R2 & R3 & R4 & R5 & R6 & R7 & R8 & R9 & R10 & R11 & R12 & R13 & R14).
  assert (Bd := base_result t (o :: t) F susp a c z Es eq_refl Sc B).
  apply (ok_out_emit m0 h t0 F w o); [reflexivity|].
  unfold phase_ok in P. rewrite Er in P. destruct (a_phase a) eqn:Ep.
  - destruct P as (_ & C & P1 & P2 & P3). apply pre_ok.
    + apply ok_emit; [exact OW|]. cbn [obs_ok o]. fold t. split; [apply (c_hd _ _ _ _ _ _ C vp n eq_refl)|now right].
    + exact Bd.
    + apply (cur_result t (o :: t) F a _ false _ c z Es); auto.
    + cbn [loop_data wemit w_obs app a_with_v a_callorig]. fold t. rewrite Es, R9, R6. auto.
  - destruct P as (P & _). discriminate P.
  - destruct P as (_ & C & D1 & D2). apply post_ok.
    + apply ok_emit; [exact OW|]. cbn [obs_ok o]. fold t. split; [apply (c_hd _ _ _ _ _ _ C vp n eq_refl)|left; apply C].
    + exact Bd.
    + apply (cur_result t (o :: t) F a _ true _ c z Es); auto.
    + cbn [wemit w_obs app]. fold t. unfold orig_done. rewrite Es, R9, R6, R12 by apply C. auto.
Qed.

(** ** The stack *)
Definition ok_state (x : astate) : Prop :=
  ok_world m0 h t0 (as_w x) /\ stack_ok m0 h (w_obs (as_w x) ++ t0) false (as_fr x).

Lemma stack_about : forall F A susp w l w', NoDup (F :: map af_id A) -> w_obs w' = l ++ w_obs w -> Forall (about F) l ->
  stack_ok m0 h (w_obs w ++ t0) susp A -> stack_ok m0 h (w_obs w' ++ t0) susp A.
Proof.
  intros F A susp w l w' N E Fl S. rewrite E, <- app_assoc. apply (stack_see m0 h (w_obs w ++ t0)); [|exact S].
  intros G I'. apply (see_other F); auto. inversion N as [|x y N1 N2]. intros ->. contradiction.
Qed.
Lemma take_ign_ok : forall t A A1 susp, take_ign A = Some A1 -> stack_ok m0 h t susp A -> stack_ok m0 h t susp A1.
Proof.
  intros t A. induction A as [|f A IH]; intros A1 susp E S; cbn [take_ign] in E; [discriminate|].
  cbn [stack_ok] in S. destruct (af_hook f) eqn:Eh; [discriminate|]. destruct S as [S0 S].
  destruct (af_ign f).
  - injection E as <-. cbn [stack_ok af_hook af_after]. auto.
  - destruct (take_ign A) as [r|] eqn:Er; [|discriminate]. injection E as <-. cbn [stack_ok]. rewrite Eh. split; [exact S0|].
    eapply IH; eauto.
Qed.
Lemma stack_close : forall d w susp A, stack_ok m0 h (w_obs w ++ t0) susp A -> stack_ok m0 h (w_obs (close d w) ++ t0) susp A.
Proof. intros d w susp A. apply stack_see. intros G _. apply close_see. Qed.

Lemma unwind_ok : forall A aft z w, NoDup (map af_id A) -> ok_world m0 h t0 w -> stack_ok m0 h (w_obs w ++ t0) (is_rec aft) A ->
  ok_state (a_unwind h aft z A w).
Proof.
  induction A as [|f A IH]; intros aft z w N OW S; destruct aft; cbn [a_unwind is_rec] in *; try (split; [exact OW|exact S]).
  - discriminate S.
  - unfold a_reset. destruct (take_ign (f :: A)) as [r|] eqn:E; [|split; [exact OW|exact S]].
    split; [now apply ok_close|]. cbn [as_fr as_w]. apply stack_close. eapply take_ign_ok; eauto.
  - cbn [stack_ok] in S. destruct (af_hook f) as [a|]; [|destruct S; discriminate].
    destruct S as [[[B P] Er] S]. specialize (Er eq_refl).
    set (a1 := a_with_v (vs_cur MSupercede (a_v a)) a).
    assert (Fo : frame_ok m0 h (w_obs w ++ t0) (af_id f) true a1).
    { apply frame_setcur. now split. }
    pose proof (done_ok (af_id f) (depth A) true a1 z w OW Fo Er (fun _ => eq_refl)) as (O1 & (l & El & Fl) & O3).
    inversion N as [|x y N1 N2]; subst.
    assert (S' := stack_about (af_id f) A (is_rec (af_after f)) w l _ N El Fl S).
    destruct (a_done h (af_id f) (depth A) a1 z w) as [a' w'|z' w'] eqn:Ed; cbn [out_w] in *.
    + split; [exact O1|]. cbn [as_fr as_w stack_ok af_hook af_id af_after]. split; [split; [exact O3|discriminate]|exact S'].
    + apply IH; auto.
Qed.
Lemma resume_ok : forall o F aft A w, NoDup (F :: map af_id A) -> ok_out m0 h t0 F w o -> stack_ok m0 h (w_obs w ++ t0) (is_rec aft) A ->
  ok_state (a_resume h o F aft A).
Proof.
  intros o F aft A w N (O1 & (l & El & Fl) & O3) S. assert (S' := stack_about F A _ w l _ N El Fl S).
  destruct o as [a w'|z w']; cbn [a_resume out_w] in *.
  - split; [exact O1|]. cbn [as_fr as_w stack_ok af_hook af_id af_after]. split; [split; [exact O3|discriminate]|exact S'].
  - apply unwind_ok; auto. now inversion N.
Qed.

(** *** Calls *)
Hypothesis Horig : forall s, orig_code h s = COrig (m0 s).
Lemma see_begin : forall F w s a p k, see (w_obs (wemit (OBegin F s a p k) w) ++ t0) F =
  match k with KNormal => vw_begin s a p false | KIgnored => vw_begin s a p true | KRecall q => vw_continue s a p (see (w_obs w ++ t0) q) end.
Proof. intros. now see1. Qed.
Lemma fresh_base : forall F w s this p alive seen (k : kind) ign, this <> 0%Z -> match k with KNormal => ign = false | KIgnored => ign = true | KRecall _ => False end ->
  (ign = true -> alive = false) ->
  base m0 (w_obs (wemit (OBegin F s this p k) w) ++ t0) F false (AHook s this p (orig_code h s) alive seen true PPre None v_init 0).
Proof.
  intros F w s this p alive seen k ign N K Ha.
  assert (E : see (w_obs (wemit (OBegin F s this p k) w) ++ t0) F = vw_begin s this p ign) by (rewrite see_begin; destruct k; subst; tauto).
  constructor; rewrite ?E; cbn [vw_begin vw_slot vw_this vw_param vw_res vw_res1 vw_res2 app max_res last_override vw_prev vw_orig vw_ign vw_rec vw_post vw_pst a_slot a_this a_param a_addr a_v a_alive v_init v_status v_prev]; auto; discriminate.
Qed.
Lemma fresh_cur : forall F w s this p (k : kind) a, match k with KRecall _ => False | _ => True end ->
  cur h (w_obs (wemit (OBegin F s this p k) w) ++ t0) F a false None /\
  (a_callorig a = true -> loop_data (w_obs (wemit (OBegin F s this p k) w) ++ t0) F a false).
Proof.
  intros F w s this p k a K. set (t := w_obs (wemit (OBegin F s this p k) w) ++ t0).
  assert (E : exists ign, see t F = vw_begin s this p ign) by (unfold t; rewrite see_begin; destruct k; try contradiction; eauto).
  destruct E as [ign E]. split.
  - constructor; rewrite ?E; cbn [vw_begin vw_ran vw_post vw_pre]; try discriminate; try contradiction; auto. constructor.
  - intros Hc. cbn [loop_data]. rewrite E. cbn. auto.
Qed.
Lemma call_ok : forall A F s this p aft alive seen k ign w, NoDup (F :: map af_id A) -> this <> 0%Z ->
  match k with KNormal => ign = false | KIgnored => ign = true | KRecall _ => False end -> (ign = true -> alive = false) ->
  is_rec aft = false -> ok_world m0 h t0 w -> stack_ok m0 h (w_obs w ++ t0) false A ->
  ok_state (a_resume h (a_pre h F (depth A) (AHook s this p (orig_code h s) alive seen true PPre None v_init 0) None
                          (wemit (OBegin F s this p k) w)) F aft A).
Proof.
  intros A F s this p aft alive seen k ign w N Nz K Ha R OW S.
  assert (K' : match k with KRecall _ => False | _ => True end) by (now destruct k).
  apply (resume_ok _ F aft A w); [exact N| |now rewrite R].
  apply (ok_out_emit m0 h t0 F w (OBegin F s this p k)); [reflexivity|].
  destruct (fresh_cur F w s this p k (AHook s this p (orig_code h s) alive seen true PPre None v_init 0) K') as [C D].
  apply pre_ok; auto.
  - apply ok_emit; [exact OW|]. cbn [obs_ok]. destruct k; [exact I|exact I|contradiction].
  - eapply fresh_base; eauto.
Qed.

Lemma about_app : forall F w o, about F o -> exists l, w_obs (wemit o w) = l ++ w_obs w /\ Forall (about F) l.
Proof. intros F w o Ab. exists [o]. split; [reflexivity|]. constructor; [exact Ab|constructor]. Qed.

Lemma recall_ok : forall res val p f a vp nid A w, NoDup (h_nxt h :: af_id f :: map af_id A) -> ok_world m0 h t0 w ->
  af_hook f = Some a -> a_run a = Some (vp, nid) -> a_alive a = true ->
  stack_ok m0 h (w_obs w ++ t0) false (f :: A) ->
  ok_state (a_recall h res val p f a nid A w).
Proof.
  intros res val p f a vp nid A w N OW Eh Er Ha S. cbn [stack_ok] in S. rewrite Eh in S. destruct S as [[[B P] _] S].
  set (F := af_id f) in *. set (t := w_obs w ++ t0) in *. set (Q := h_nxt h) in *.
  set (w1 := wemit (ORecall F nid res val) w).
  set (v1 := vs_cur res (vs_status (meta_max res (v_status (a_v a))) (a_v a))).
  assert (E1 : see (w_obs w1 ++ t0) F = vw_recall res val (see t F)) by (unfold w1; now see1).
  destruct (result_rest res val (see t F)) as (R1 & R2 & R3 & R4 & R5 & R6 & R7 & R8 & R9 & R10 & R11 & R12 & R13 & R14).
  assert (R15 : vw_res (vw_result res val (see t F)) = (res, val) :: vw_res (see t F)).
  { apply R14. destruct (vw_post (see t F)) eqn:Ep; [now left|right]. exact (proj1 (b_post0 _ _ _ _ _ B Ep)). }
  assert (Hr0 : vw_rec (see t F) = false). { destruct (vw_rec (see t F)) eqn:E; [|reflexivity]. destruct (b_rec _ _ _ _ _ B E). congruence. }
  assert (NQ : Q <> F). { inversion N as [|x y N1 N2]; subst. intros E. apply N1. left. auto. }
  (* the frame that recalls *)
  assert (Fr : frame_ok m0 h (w_obs w1 ++ t0) F true (a_off v1 a)).
  { split.
    - destruct B as [B1 B2 B3 B4 B5 B6 B7 B8 B9 B10 B11 B12 B13].
      constructor; rewrite ?E1; unfold vw_recall; cbn [vw_slot vw_this vw_param vw_post vw_res2 vw_pst vw_prev vw_orig vw_ign vw_rec a_off a_slot a_this a_param a_addr a_v a_alive v1 vs_cur vs_status v_status v_prev v_vret v_oret];
        rewrite ?R1, ?R2, ?R3, ?R4, ?R6, ?R7, ?R11; auto; try discriminate.
      + change (vw_res _) with (vw_res (vw_result res val (see t F))). rewrite R15, B6. reflexivity.
      + split; [reflexivity|discriminate].
      + intros Hp. rewrite R13 by exact Hp. auto.
    - assert (Cr : forall post, cur h t F a post (a_run a) -> cur h (w_obs w1 ++ t0) F (a_off v1 a) post (a_run a)).
      { intros post [C1 C2 C3 C4 C5 C6 C7 C8 C9]. assert (Er' : vw_ran (see (w_obs w1 ++ t0) F) = vw_ran (see t F)) by (rewrite E1; exact R10).
        constructor; rewrite ?Er'; auto.
        - rewrite E1. unfold vw_recall. cbn [vw_post]. now rewrite R4.
        - rewrite E1. unfold vw_recall. discriminate. }
      unfold phase_ok in *. cbn [a_off a_phase a_run a_callorig]. rewrite !E1. unfold vw_recall, orig_done in *. cbn [vw_post vw_norig vw_orig vw_res1].
      rewrite R9, R6, R4. destruct (a_phase a).
      + intuition auto.
      + destruct P as [P _]. congruence.
      + destruct P as (P1 & P2 & P3 & P4). rewrite R12 by apply P2. auto. }
  assert (OW1 : ok_world m0 h t0 w1).
  { apply ok_emit; [exact OW|]. cbn [obs_ok]. fold t. unfold phase_ok in P. rewrite Er in P. destruct (a_phase a).
    - destruct P as (_ & C & P1 & _). split; [apply (c_hd _ _ _ _ _ _ C vp nid eq_refl)|split; [now right|exact Hr0]].
    - destruct P as (P & _). discriminate P.
    - destruct P as (_ & C & _). split; [apply (c_hd _ _ _ _ _ _ C vp nid eq_refl)|split; [left; apply C|exact Hr0]]. }
  assert (S1 : stack_ok m0 h (w_obs w1 ++ t0) true (AFrame F (af_after f) false (Some (a_off v1 a)) :: A)).
  { cbn [stack_ok af_hook af_id af_after]. split; [split; [exact Fr|cbn [a_off a_run]; rewrite Er; discriminate]|].
    apply (stack_about F A _ w [ORecall F nid res val] w1); auto; [now inversion N|]. constructor; [reflexivity|constructor]. }
  unfold a_recall. fold F v1 w1 Q. set (A1 := AFrame F (af_after f) false (Some (a_off v1 a)) :: A) in *.
  set (v2 := Vars (v_status v1) MIgnored MIgnored (v_oret (a_v a)) (if meta_ge res MOverride then val else v_vret (a_v a))).
  set (a2 := fun c : bool => AHook (a_slot a) (a_this a) p (orig_code h (a_slot a)) true (presentb h (a_slot a) (a_this a)) c PPre None v2 0).
  set (w2 := wemit (OBegin Q (a_slot a) (a_this a) p (KRecall F)) w1).
  apply (resume_ok _ Q ARecall A1 w1); [exact N| |exact S1].
  apply (ok_out_emit m0 h t0 Q w1 (OBegin Q (a_slot a) (a_this a) p (KRecall F))); [reflexivity|]. fold w2.
  assert (E2 : see (w_obs w2 ++ t0) Q = vw_continue (a_slot a) (a_this a) p (vw_recall res val (see t F))) by (unfold w2; rewrite see_begin, E1; reflexivity).
  assert (OW2 : ok_world m0 h t0 w2).
  { apply ok_emit; [exact OW1|]. cbn [obs_ok]. rewrite E1. unfold vw_recall. cbn zeta. cbn [vw_slot vw_this].
    destruct B as [B1 B2 _ _ _ _ _ _ _ _ _ _ _]. split; [now rewrite R1, <- B1|]. split; [now rewrite R2, <- B2|]. unfold w1. cbn [wemit w_obs app]. eauto. }
  assert (B2 : forall c, base m0 (w_obs w2 ++ t0) Q false (a2 c)).
  { intros c. destruct B as [B1 B2 B3 B4 B5 B6 B7 B8 B9 B10 B11 B12 B13].
    constructor; rewrite ?E2; unfold vw_continue, vw_recall; cbn [vw_slot vw_this vw_param vw_post vw_res2 vw_pst vw_prev vw_orig vw_ign vw_rec a2 a_slot a_this a_param a_addr a_v a_alive v2 v_status v_prev v_vret v_oret];
      rewrite ?R4, ?R6, ?R11; auto; try discriminate.
    - change (vw_res _) with (vw_res (vw_result res val (see t F))). rewrite R15. cbn [v1 vs_cur vs_status v_status]. rewrite B6. reflexivity.
    - intros _ z. change (vw_res _) with (vw_res (vw_result res val (see t F))). rewrite R15. cbn [last_override].
      destruct res; cbn [meta_ge meta_num Nat.leb]; try congruence; apply (B8 eq_refl).
    - intros Hp. rewrite R13 by exact Hp. auto. }
  assert (C2 : forall c post, cur h t F a post (a_run a) -> cur h (w_obs w2 ++ t0) Q (a2 c) post (a_run a)).
  { intros c post [C1 C2 C3 C4 C5 C6 C7 C8 C9]. assert (Er' : vw_ran (see (w_obs w2 ++ t0) Q) = vw_ran (see t F)) by (rewrite E2; exact R10).
    constructor; rewrite ?Er'; auto.
    - rewrite E2. unfold vw_continue, vw_recall. cbn [vw_post]. now rewrite R4.
    - intros k vp' n' _ I' _ _. cbn [a2 a_alive a_seen a_slot a_this] in *. split; [reflexivity|]. intros ->. apply (in_present _ _ _ _ _ I'). }
  unfold phase_ok in P. destruct (a_phase a).
  - destruct P as (_ & C & P1 & P2 & P3). apply pre_ok; [exact OW2|apply B2|apply C2; exact C|]. unfold loop_data. rewrite !E2.
    unfold vw_continue, vw_recall. cbn [vw_norig vw_orig]. rewrite R9, R6. auto.
  - destruct P as (P & _). congruence.
  - destruct P as (_ & C & D1 & D2). apply begin_post_ok; [exact OW2|apply B2|right; split; [apply C2; exact C|unfold w2; cbn [wemit w_obs app]; eauto 8]|]. unfold orig_done. rewrite !E2. unfold vw_continue, vw_recall. cbn [vw_norig vw_res1 vw_orig].
    rewrite R9, R6, R12 by apply C. auto.
Qed.
End Frame.

(** ** All events *)
Lemma orig_code_all : forall m0 h s, WM m0 h -> WH h -> orig_code h s = COrig (m0 s).
Proof.
  intros m0 h s M W. unfold orig_code, orig_entry. destruct (find (vfn_at s) (h_vfns h)) as [v|] eqn:F.
  - apply find_some in F. destruct F as [Hv Ev]. unfold vfn_at in Ev. apply Z.eqb_eq in Ev. subst s. now apply (wm_orig m0 h M).
  - apply (wm_mem0 m0 h M). intros v Hv Ev. apply (find_none _ _ F) in Hv. unfold vfn_at in Hv. apply Z.eqb_neq in Hv. auto.
Qed.
Lemma cinv_wh : forall m0 s A, CInv m0 s A -> WH (s_h s).
Proof. intros m0 s A C. exact (wf_h _ _ (g_wf _ _ (ci_good _ _ _ C))). Qed.
Lemma cinv_wm : forall m0 s A, CInv m0 s A -> WM m0 (s_h s).
Proof. intros m0 s A C. exact (wf_m _ _ (g_wf _ _ (ci_good _ _ _ C))). Qed.
Lemma nid_lt : forall h s a p k, WH h -> hook_at h s a p k -> hk_nid k < h_nxt h.
Proof. intros h s a p k W H. apply (wh_fresh_n h W). eapply hook_in_delegs; eauto. Qed.
Lemma cinv_ids : forall m0 s A, CInv m0 s A -> map af_id A = ids (s_fr s).
Proof. intros m0 s A C. symmetry. eapply rel_ids. apply (ci_rel _ _ _ C). Qed.

Lemma stack_native : forall m0 h t0 w F c this p susp A, stack_ok m0 h (w_obs w ++ t0) susp A ->
  stack_ok m0 h (w_obs (wemit (ONative F c this p) w) ++ t0) susp A.
Proof. intros m0 h t0 w F c this p susp A. apply stack_see. reflexivity. Qed.

Lemma run_event_ok : forall m0 s A e h' x, CInv m0 s A -> allowed (s_h s) A e -> runs e = true ->
  stack_ok m0 (s_h s) (h_tr (s_h s)) false A -> astep (s_h s) h' A (b_pend (s_b s)) e = Some x ->
  ok_state m0 (s_h s) (h_tr (s_h s)) x.
Proof.
  intros m0 s A e h' x C Al Hr S E. set (h := s_h s) in *. set (t0 := h_tr h) in *.
  pose proof (cinv_wh _ _ _ C) as W. pose proof (cinv_wm _ _ _ C) as M. fold h in W, M.
  assert (Hn : forall s0 a p k, hook_at h s0 a p k -> hk_nid k < h_nxt h) by (intros; eapply nid_lt; eauto).
  assert (Ho : forall s0, orig_code h s0 = COrig (m0 s0)) by (intros; now apply orig_code_all).
  set (w := World (b_pend (s_b s)) []). assert (OW : ok_world m0 h t0 w) by apply ok_world_nil.
  assert (ND : NoDup (map af_id A)) by (rewrite (cinv_ids _ _ _ C); apply (ci_nd _ _ _ C)).
  assert (NDf : NoDup (h_nxt h :: map af_id A)).
  { constructor; [|exact ND]. rewrite (cinv_ids _ _ _ C). intros I'. pose proof (ci_fresh _ _ _ C _ I'). fold h in H. lia. }
  destruct e as [this vo idx param|this vo idx param|z|m|res val offs vo idx param| | | | | | | | | |]; cbn [runs] in Hr; try discriminate; cbn [astep] in E; fold w in E; cbn [allowed] in Al.
  - (* ECall *)
    destruct Al as [Nz _]. injection E as <-.
    destruct (is_hookcode (h_mem h (slot_of h this vo idx))).
    + destruct (take_ign A) as [A1|] eqn:Et.
      * unfold a_ignored. apply (call_ok m0 h t0 W Hn Ho A1) with (ign := true); auto.
        -- rewrite (take_ign_ids _ _ Et). exact NDf.
        -- eapply take_ign_ok; eauto.
      * unfold a_hooked. apply (call_ok m0 h t0 W Hn Ho A) with (ign := false); auto.
    + split; [apply ok_emit; [exact OW|exact I]|]. cbn [a_native as_fr as_w stack_ok af_hook af_after is_rec]. split; [reflexivity|].
      apply stack_native. exact S.
  - (* ESHCall *)
    destruct Al as [Nz _]. injection E as <-.
    destruct (is_hookcode (h_mem h (slot_of h this vo idx))).
    + unfold a_ignored. apply (call_ok m0 h t0 W Hn Ho A) with (ign := true); auto.
    + split; [apply ok_emit; [exact OW|exact I]|]. cbn [a_native as_fr as_w stack_ok af_hook af_after is_rec]. split; [reflexivity|].
      apply stack_native. exact S.
  - (* EReturn *)
    destruct A as [|f A]; [discriminate|]. cbn [stack_ok] in S. cbn [map] in ND.
    destruct (af_hook f) as [a|] eqn:Eh.
    + destruct S as [[[B P] _] S]. destruct (a_run a) as [[vp n]|] eqn:Er; injection E as <-.
      * apply (resume_ok m0 h t0 W Hn _ (af_id f) (af_after f) A w ND); [|exact S].
        apply (done_ok m0 h t0 W Hn (af_id f) (depth A) false); auto; [now split|congruence|discriminate].
      * assert (Ph : a_phase a = POrig). { unfold phase_ok in P. destruct (a_phase a); [|reflexivity|]; destruct P as [P _]; congruence. }
        unfold phase_ok in P. rewrite Ph in P. destruct P as (_ & P1 & P2 & P3).
        apply (resume_ok m0 h t0 W Hn _ (af_id f) (af_after f) A w ND); [|exact S].
        set (F := af_id f) in *. apply (ok_out_emit m0 h t0 F w (OOrigRet F z)); [reflexivity|].
        assert (Es : see (w_obs (wemit (OOrigRet F z) w) ++ t0) F = vw_origret z (see t0 F)) by (now see1).
        apply begin_post_ok; auto.
        -- apply ok_emit; [exact OW|]. cbn [obs_ok]. auto.
        -- destruct B as [B1 B2 B3 B4 B5 B6 B7 B8 B9 B10 B11 B12 B13].
           constructor; rewrite ?Es; cbn [a_with_v a_slot a_this a_param a_addr a_v a_alive vs_oret v_status v_prev v_vret v_oret vw_origret vw_slot vw_this vw_param vw_prev vw_orig vw_ign vw_rec vw_post vw_res2 vw_pst]; auto.
           congruence.
        -- left. rewrite Es. auto.
        -- unfold orig_done. rewrite Es. cbn [vw_origret vw_norig vw_res1 vw_orig]. rewrite P3, P2. split; [reflexivity|discriminate].
    + destruct S as [_ S]. injection E as <-.
      assert (OW1 : ok_world m0 h t0 (wemit (ONativeRet (af_id f) z) w)) by (apply ok_emit; [exact OW|exact I]).
      assert (S1 : forall b, stack_ok m0 h t0 b A -> stack_ok m0 h (w_obs (wemit (ONativeRet (af_id f) z) w) ++ t0) b A).
      { intros b. apply stack_see. reflexivity. }
      destruct (af_ign f) eqn:Eg.
      * destruct (af_after f) eqn:Ea.
        -- split; [exact OW1|]. cbn [as_fr as_w stack_ok]. rewrite Eh, Ea. auto.
        -- split; [now apply ok_close|]. cbn [as_fr as_w]. apply (stack_close m0 h t0). apply S1. exact S.
        -- split; [exact OW1|]. cbn [as_fr as_w stack_ok]. rewrite Eh, Ea. auto.
      * apply unwind_ok; auto. now inversion ND.
  - (* ESetRes *)
    destruct A as [|f A]; [discriminate|]. cbn [stack_ok] in S. destruct (af_hook f) as [a|] eqn:Eh; [|discriminate].
    destruct (a_run a) eqn:Er; [|discriminate]. injection E as <-. split; [exact OW|].
    cbn [as_fr as_w w w_obs app stack_ok af_hook af_id af_after]. destruct S as [[S0 _] S]. split; [split; [|discriminate]|exact S].
    apply frame_setcur. exact S0.
  - (* ERecall *)
    destruct A as [|f A]; [discriminate|]. destruct (af_hook f) as [a|] eqn:Eh; [|discriminate].
    destruct (a_run a) as [[vp n]|] eqn:Er; [|discriminate]. injection E as <-. destruct Al as [Ha _].
    apply (recall_ok m0 h t0 W Hn Ho res val param f a vp n A w); auto.
Qed.

(** The hooks change, or only the counter. *)
Definition older (h h' : hs) : Prop :=
  h_nxt h <= h_nxt h' /\ forall s a p k, hook_at h' s a p k -> hk_nid k < h_nxt h -> exists k0, hook_at h s a p k0 /\ hk_nid k0 = hk_nid k.
Lemma phase_older : forall h h' t F a b, older h h' -> a_slot b = a_slot a -> a_this b = a_this a -> a_phase b = a_phase a ->
  a_run b = a_run a -> a_callorig b = a_callorig a ->
  (forall x post k, In k (installed h' (a_slot a) x post) -> a_alive b = a_alive a /\ (x = a_this a -> a_seen b = a_seen a)) ->
  phase_ok h t F a -> phase_ok h' t F b.
Proof.
  intros h h' t F a b [N O] E1 E2 E3 E4 E5 E6 P.
  assert (C : forall post, cur h t F a post (a_run a) -> cur h' t F b post (a_run a)).
  { intros post [C1 C2 C3 C4 C5 C6 C7 C8 C9].
    assert (G : forall k x, In k (installed h' (a_slot a) x post) -> In (hk_nid k) (vw_ran (see t F)) ->
              exists k0, In k0 (installed h (a_slot a) x post) /\ hk_nid k0 = hk_nid k).
    { intros k x I' R. apply in_installed in I'. destruct (O _ _ _ _ I' (C2 _ R)) as (k0 & H0 & E). exists k0. split; [now apply in_installed|exact E]. }
    constructor; rewrite ?E1, ?E2; auto.
    - intros m I'. specialize (C2 m I'). lia.
    - intros k vp n E I' R. destruct (G k _ I' R) as (k0 & I0 & E0). rewrite <- E0 in *. eapply C6; eauto.
    - intros k vp n E I' R. destruct (G k _ I' R) as (k0 & I0 & E0). rewrite <- E0 in *. eapply C7; eauto.
    - intros k vp n E I' R Hr. assert (Rn : In (hk_nid k) (vw_ran (see t F))).
      { specialize (C5 vp n E). destruct (vw_ran (see t F)); [discriminate|]. cbn in C5. injection C5 as ->. left. congruence. }
      destruct (G k _ I' Rn) as (k0 & I0 & E0). destruct (C8 k0 vp n E I0 (eq_trans E0 R) Hr) as [Ha Hs].
      destruct (E6 _ _ _ I') as [E7 E8]. rewrite E7. split; [exact Ha|]. intros ->. rewrite E8; auto.
    - intros k vp n s x p E I' R. assert (Rn : n < h_nxt h).
      { apply C2. specialize (C5 vp n E). destruct (vw_ran (see t F)); [discriminate|]. cbn in C5. injection C5 as ->. now left. }
      apply in_installed in I'. rewrite <- R in Rn. destruct (O _ _ _ _ I' Rn) as (k0 & H0 & E0). apply in_installed in H0.
      apply (C9 k0 vp n s x p E H0). congruence. }
  unfold phase_ok in *. rewrite E3, E4, E5. destruct (a_phase a); intuition auto.
Qed.
Lemma stack_older : forall m0 h h' t A susp, older h h' -> stack_ok m0 h t susp A -> stack_ok m0 h' t susp A.
Proof.
  intros m0 h h' t A. induction A as [|f A IH]; intros susp O S; [exact S|]. cbn [stack_ok] in *. destruct S as [S1 S2].
  split; [|now apply IH]. destruct (af_hook f) as [a|]; [|exact S1]. destruct S1 as [[B P] Q]. split; [split; [exact B|]|exact Q].
  apply (phase_older h h' t (af_id f) a); auto.
Qed.
Lemma stack_refresh : forall m0 h h' t A susp, older h h' -> stack_ok m0 h t susp A -> stack_ok m0 h' t susp (map (refresh h') A).
Proof.
  intros m0 h h' t A. induction A as [|f A IH]; intros susp O S; [exact S|]. cbn [stack_ok map refresh af_hook af_id af_after] in *. destruct S as [S1 S2].
  split; [|now apply IH]. destruct (af_hook f) as [a|]; cbn [option_map]; [|exact S1]. destruct S1 as [[B P] Q]. split; [split|exact Q].
  - destruct B as [B1 B2 B3 B4 B5 B6 B7 B8 B9 B10 B11 B12 B13]. constructor; cbn [a_refresh a_slot a_this a_param a_addr a_v a_alive]; auto.
    + intros H. rewrite (B10 H). reflexivity.
    + intros H. destruct (B11 H) as [H1 H2]. rewrite H1. auto.
  - apply (phase_older h h' t (af_id f) a); auto. intros x post k I'. cbn [a_refresh a_alive a_seen].
    rewrite (in_hooked _ _ _ _ _ I'), andb_true_r. split; [reflexivity|]. intros ->. rewrite (in_present _ _ _ _ _ I'), andb_true_r. reflexivity.
Qed.

Lemma step_older : forall m0 s e s', Good m0 s -> step s e = Ok s' -> h_nxt (s_h s) <= h_nxt (s_h s') -> older (s_h s) (s_h s').
Proof.
  intros m0 s e s' G E N. split; [exact N|]. destruct (step_change m0 s e s' G E) as (new & _ & Ch).
  intros s0 a p k H L. destruct Ch as [Ev _ _ _|slot adj post hk Ad _ _ _|D Hd _ _ _ _|D q Ev _ _ _].
  - exists k. split; [|reflexivity]. unfold hook_at in *. rewrite Ev in H. exact H.
  - apply (ad_hooks _ _ _ _ _ _ Ad) in H. destruct H as [H|(-> & -> & -> & ->)]; [eauto|]. pose proof (ad_fresh _ _ _ _ _ _ Ad). lia.
  - apply Hd in H. destruct H. eauto.
  - assert (H1 : hook_at (set_vfns (s_h s) (map (pause_vfn D q) (h_vfns (s_h s)))) s0 a p k).
    { unfold hook_at in *. rewrite Ev in H. exact H. }
    apply (pause_hook_at (s_h s) D q) in H1. destruct H1 as (k0 & H1 & ->). exists k0. split; [exact H1|].
    symmetry. apply pause_hook_nid.
Qed.

(** ** Which frames are talked about *)
Definition fid_of (o : obs) : option nat :=
  match o with
  | OBegin f _ _ _ _ | OHandler f _ _ _ _ | OHandlerRet f _ _ _ | ORecall f _ _ _ | OOrig f _ _ _ | OOrigRet f _ | OPost f | OEnd f _
  | ONative f _ _ _ | ONativeRet f _ => Some f
  | _ => None
  end.
Definition begins (o : obs) : list nat := match o with OBegin f _ _ _ _ => [f] | _ => [] end.
Definition mild (L : list nat) (o : obs) : Prop :=
  begins o = [] /\ forall F, fid_of o = Some F -> In F L.
Definition emits (L : list nat) (w w' : world) : Prop := exists l, w_obs w' = l ++ w_obs w /\ Forall (mild L) l.
Lemma emits_refl : forall L w, emits L w w.
Proof. intros L w. exists []. auto. Qed.
Lemma emits_trans : forall L w1 w2 w3, emits L w1 w2 -> emits L w2 w3 -> emits L w1 w3.
Proof. intros L w1 w2 w3 (l1 & E1 & F1) (l2 & E2 & F2). exists (l2 ++ l1). rewrite E2, E1, app_assoc. split; [reflexivity|]. apply Forall_app. auto. Qed.
Lemma emits_one : forall L w o, mild L o -> emits L w (wemit o w).
Proof. intros L w o M. exists [o]. split; [reflexivity|]. constructor; [exact M|constructor]. Qed.
Lemma emits_more : forall L L' w w', incl L L' -> emits L w w' -> emits L' w w'.
Proof.
  intros L L' w w' I' (l & E & F). exists l. split; [exact E|]. eapply Forall_impl; [|exact F]. intros o [H1 H2]. split; auto.
Qed.
Lemma emits_close : forall L d w, emits L w (close d w).
Proof.
  intros L d w. destruct (close_obs d w) as (l & E & F). exists l. split; [exact E|]. eapply Forall_impl; [|exact F].
  intros o (p & y & ->). split; [reflexivity|discriminate].
Qed.
Lemma mild_of : forall L o F, begins o = [] -> fid_of o = Some F -> In F L -> mild L o.
Proof. intros L o F B E I'. split; [exact B|]. intros G E'. congruence. Qed.
Lemma emits_post : forall h F d a from w, emits [F] w (out_w (a_post h F d a from w)).
Proof.
  intros h F d a from w. unfold a_post. destruct (next h a true from) as [x|]; cbn [a_start out_w].
  - apply emits_one. eapply mild_of; [reflexivity|reflexivity|now left].
  - eapply emits_trans; [apply emits_close|]. apply emits_one. eapply mild_of; [reflexivity|reflexivity|now left].
Qed.
Lemma emits_begin_post : forall h F d a from w, emits [F] w (out_w (a_begin_post h F d a from w)).
Proof.
  intros h F d a from w. unfold a_begin_post. eapply emits_trans; [|apply emits_post]. apply emits_one. eapply mild_of; [reflexivity|reflexivity|now left].
Qed.
Lemma emits_pre : forall h F d a from w, emits [F] w (out_w (a_pre h F d a from w)).
Proof.
  intros h F d a from w. unfold a_pre. destruct (next h a false from) as [x|]; cbn [a_start out_w].
  - apply emits_one. eapply mild_of; [reflexivity|reflexivity|now left].
  - destruct (_ && _); [|apply emits_begin_post]. apply emits_one. eapply mild_of; [reflexivity|reflexivity|now left].
Qed.
Lemma emits_done : forall h F d a z w, emits [F] w (out_w (a_done h F d a z w)).
Proof.
  intros h F d a z w. unfold a_done. destruct (a_run a) as [[vp n]|]; [|apply emits_refl].
  eapply emits_trans; [apply (emits_one [F] w (OHandlerRet F n (v_cur (a_v a)) z)); eapply mild_of; [reflexivity|reflexivity|now left]|].
  destruct (a_phase a); [apply emits_pre|apply emits_pre|apply emits_post].
Qed.
Lemma emits_unwind : forall h A aft z w, emits (map af_id A) w (as_w (a_unwind h aft z A w)).
Proof.
  intros h A. induction A as [|f A IH]; intros aft z w; destruct aft; cbn [a_unwind as_w]; try apply emits_refl.
  - unfold a_reset. destruct (take_ign (f :: A)); cbn [as_w]; [apply emits_close|apply emits_refl].
  - destruct (af_hook f) as [a|]; [|apply emits_refl].
    pose proof (emits_done h (af_id f) (depth A) (a_with_v (vs_cur MSupercede (a_v a)) a) z w) as M.
    apply (emits_more _ (map af_id (f :: A))) in M; [|intros x [<-|[]]; now left].
    destruct (a_done _ _ _ _ _ _) as [a' w'|z' w']; cbn [out_w as_w] in *; [exact M|].
    eapply emits_trans; [exact M|]. apply (emits_more (map af_id A)); [intros x Hx; now right|apply IH].
Qed.
Lemma emits_resume : forall h o F aft A w, emits [F] w (out_w o) -> emits (F :: map af_id A) w (as_w (a_resume h o F aft A)).
Proof.
  intros h o F aft A w M. apply (emits_more _ (F :: map af_id A)) in M; [|intros x [<-|[]]; now left].
  destruct o as [a w'|z w']; cbn [a_resume out_w as_w] in *; [exact M|].
  eapply emits_trans; [exact M|]. apply (emits_more (map af_id A)); [intros x Hx; now right|apply emits_unwind].
Qed.

(** At most one call begins, and gets the next number. *)
Lemma astep_obs : forall h h' A p e x, astep h h' A p e = Some x ->
  (forall o F, In o (w_obs (as_w x)) -> fid_of o = Some F -> In F (map af_id A) \/ opens e = true /\ F = h_nxt h) /\
  (flat_map begins (w_obs (as_w x)) = [] \/ opens e = true /\ flat_map begins (w_obs (as_w x)) = [h_nxt h]).
Proof.
  intros h h' A p e x E. set (w := World p []) in *.
  assert (Q : forall L l, Forall (mild L) l -> flat_map begins l = []).
  { intros L l M. induction M as [|o l [H _] M IH]; [reflexivity|]. cbn [flat_map]. now rewrite H, IH. }
  assert (C0 : forall L y, emits L w (as_w y) -> incl L (map af_id A) -> x = y ->
    (forall o F, In o (w_obs (as_w x)) -> fid_of o = Some F -> In F (map af_id A) \/ opens e = true /\ F = h_nxt h) /\
    (flat_map begins (w_obs (as_w x)) = [] \/ opens e = true /\ flat_map begins (w_obs (as_w x)) = [h_nxt h])).
  { intros L y (l & El & Fl) I' ->. rewrite El. cbn [w w_obs]. rewrite app_nil_r. split; [|left; eapply Q; eauto].
    intros o F Io Eo. left. rewrite Forall_forall in Fl. apply I'. apply (proj2 (Fl o Io) F Eo). }
  assert (C1 : forall L o0 w1 y, emits L (wemit o0 w1) (as_w y) -> incl L (h_nxt h :: map af_id A) -> fid_of o0 = Some (h_nxt h) -> opens e = true ->
    (w1 = w \/ exists f, In (af_id f) (map af_id A) /\ exists n r z, w1 = wemit (ORecall (af_id f) n r z) w) -> x = y ->
    (forall o F, In o (w_obs (as_w x)) -> fid_of o = Some F -> In F (map af_id A) \/ opens e = true /\ F = h_nxt h) /\
    (flat_map begins (w_obs (as_w x)) = [] \/ opens e = true /\ flat_map begins (w_obs (as_w x)) = [h_nxt h])).
  { intros L o0 w1 y (l & El & Fl) I' Eo0 Op Hw1 ->. rewrite El. cbn [wemit w_obs].
    assert (I1 : forall o F, In o (w_obs w1) -> fid_of o = Some F -> In F (map af_id A)).
    { intros o F Io Eo. destruct Hw1 as [->|(f & Hf & n & r & z & ->)]; [contradiction|]. destruct Io as [<-|[]]. cbn in Eo. congruence. }
    assert (B1 : flat_map begins (w_obs w1) = []) by (destruct Hw1 as [->|(f & Hf & n & r & z & ->)]; reflexivity).
    split.
    - intros o F Io Eo. apply in_app_or in Io. destruct Io as [Io|[<-|Io]].
      + rewrite Forall_forall in Fl. destruct (I' F (proj2 (Fl o Io) F Eo)); auto.
      + right. split; [exact Op|congruence].
      + left. eauto.
    - rewrite flat_map_app, (Q L l Fl). cbn [app flat_map]. rewrite B1, app_nil_r. destruct o0; cbn [begins fid_of] in *; auto.
      right. split; [exact Op|congruence]. }
  assert (If : forall F, In F (map af_id A) -> incl [F] (map af_id A)) by (intros F HF y [<-|[]]; exact HF).
  destruct e as [this vo idx q|this vo idx q|z|m|res val offs vo idx q|a b c d e0 f g|a b c d e0 f|id|id b|pl b|pl li|pl pf|pl pf a b| |a b];
    cbn [astep] in E; fold w in E; try (injection E as <-; (split; [intros ? ? []|left; reflexivity])).
  - injection E as E. symmetry in E. destruct (is_hookcode _).
    + destruct (take_ign A) as [A1|] eqn:Et.
      * eapply C1; cycle 5; [exact E|unfold a_ignored; eapply emits_resume; apply emits_pre| |reflexivity|reflexivity|left; reflexivity].
        rewrite (take_ign_ids _ _ Et). apply incl_refl.
      * eapply C1; cycle 5; [exact E|unfold a_hooked; eapply emits_resume; apply emits_pre|apply incl_refl|reflexivity|reflexivity|left; reflexivity].
    + eapply (C1 []); cycle 5; [exact E|unfold a_native; cbn [as_w]; apply emits_refl|apply incl_nil_l|reflexivity|reflexivity|left; reflexivity].
  - injection E as E. symmetry in E. destruct (is_hookcode _).
    + eapply C1; cycle 5; [exact E|unfold a_ignored; eapply emits_resume; apply emits_pre|apply incl_refl|reflexivity|reflexivity|left; reflexivity].
    + eapply (C1 []); cycle 5; [exact E|unfold a_native; cbn [as_w]; apply emits_refl|apply incl_nil_l|reflexivity|reflexivity|left; reflexivity].
  - destruct A as [|f A]; [discriminate|]. destruct (af_hook f) as [a|].
    + destruct (a_run a) as [r|]; injection E as E; symmetry in E.
      * eapply C0; cycle 2; [exact E|apply emits_resume, emits_done|apply incl_refl].
      * eapply C0; cycle 2; [exact E| |apply incl_refl]. apply (emits_resume h _ (af_id f) (af_after f) A w).
        eapply emits_trans; [|apply emits_begin_post]. apply emits_one. eapply mild_of; [reflexivity|reflexivity|now left].
    + injection E as E. symmetry in E. assert (M1 : emits (map af_id (f :: A)) w (wemit (ONativeRet (af_id f) z) w)).
      { apply emits_one. eapply mild_of; [reflexivity|reflexivity|now left]. }
      eapply (C0 (map af_id (f :: A))); cycle 2; [exact E| |apply incl_refl]. destruct (af_ign f).
      * destruct (af_after f); cbn [as_w]; [exact M1|eapply emits_trans; [exact M1|apply emits_close]|exact M1].
      * eapply emits_trans; [exact M1|]. eapply emits_more; [|apply emits_unwind]. intros y Hy. now right.
  - destruct A as [|f A]; [discriminate|]. destruct (af_hook f) as [a|]; [|discriminate]. destruct (a_run a); [|discriminate].
    injection E as <-. (split; [intros ? ? []|left; reflexivity]).
  - destruct A as [|f A]; [discriminate|]. destruct (af_hook f) as [a|]; [|discriminate]. destruct (a_run a) as [[vp n]|]; [|discriminate].
    injection E as E. symmetry in E. unfold a_recall in E.
    eapply (C1 _ (OBegin (h_nxt h) (a_slot a) (a_this a) q (KRecall (af_id f))) (wemit (ORecall (af_id f) n res val) w)); cycle 4; [|exact E| | |reflexivity|reflexivity].
    + right. exists f. split; [now left|]. eauto.
    + apply emits_resume. destruct (a_phase a); [apply emits_pre|apply emits_pre|apply emits_begin_post].
    + apply incl_refl.
Qed.

(** ** The invariant of all executions *)
Record LInv (m0 : Z -> Z) (s : state) (A : list aframe) : Prop := {
  li_c : CInv m0 s A;
  li_st : stack_ok m0 (s_h s) (h_tr (s_h s)) false A;
  li_fid : forall o F, In o (h_tr (s_h s)) -> fid_of o = Some F -> F < h_nxt (s_h s);
  li_beg : NoDup (flat_map begins (h_tr (s_h s))) }.
Lemma LInv_init : forall pfs mem vt, (forall f i, pfs f = Some i -> proto_wf (pf_proto i)) -> LInv mem (init pfs mem vt) [].
Proof.
  intros pfs mem vt P. constructor; [now apply CInv_init|reflexivity|intros o F []|constructor].
Qed.

Lemma begins_in : forall F t, In F (flat_map begins t) -> exists o, In o t /\ fid_of o = Some F.
Proof.
  intros F t I'. apply in_flat_map in I'. destruct I' as (o & Io & H). exists o. split; [exact Io|].
  destruct o; cbn [begins] in H; try contradiction. destruct H as [->|[]]. reflexivity.
Qed.
Lemma api_silent : forall o, api_obs o -> silent o /\ fid_of o = None /\ begins o = [].
Proof. intros o A. destruct o; try contradiction; repeat split; exact I. Qed.

(** Every step keeps the invariant and obeys the rules for observations. *)
Theorem step_loop : forall m0 s A e s', (forall a, Z.odd (m0 a) = false) -> LInv m0 s A -> allowed (s_h s) A e -> step s e = Ok s' ->
  exists x new, astep (s_h s) (s_h s') A (b_pend (s_b s)) e = Some x /\ LInv m0 s' (as_fr x) /\ since s s' new /\
    b_pend (s_b s') = w_pend (as_w x) /\ (runs e = true -> new = w_obs (as_w x)) /\ (runs e = false -> Forall api_obs new) /\
    forall t2 o t1, new = t2 ++ o :: t1 -> obs_ok m0 (s_h s) (t1 ++ h_tr (s_h s)) o.
Proof.
  intros m0 s A e s' Ev [C S Lf Lb] Al E. pose proof (step_refines m0 s A e Ev C Al) as Ag. unfold agrees in Ag. rewrite E in Ag.
  destruct Ag as (x & new & Ea & C' & Ep & Sn & Hn & Hx). exists x, new. split; [exact Ea|].
  assert (Ox : h_nxt (s_h s) <= h_nxt (s_h s')) by (destruct (opens e); lia).
  pose proof (step_older m0 s e s' (ci_good _ _ _ C) E Ox) as Old.
  assert (Ex : forall A' w', as_fr x = A' -> as_w x = w' -> x = AState A' w') by (intros; destruct x; subst; reflexivity).
  destruct (astep_obs _ _ _ _ _ _ Ea) as [O1 O2].
  assert (N1 : forall o F, In o new -> fid_of o = Some F -> In F (map af_id A) \/ opens e = true /\ F = h_nxt (s_h s)).
  { intros o F Io Eo. destruct (runs e); [subst new; eapply O1; eauto|]. destruct Hn as [Hn _]. rewrite Forall_forall in Hn.
    destruct (api_silent o (Hn o Io)) as (_ & X & _). congruence. }
  assert (N2 : flat_map begins new = [] \/ opens e = true /\ flat_map begins new = [h_nxt (s_h s)]).
  { destruct (runs e); [subst new; exact O2|]. left. destruct Hn as [Hn _]. clear - Hn. induction Hn as [|o l H Hl IH]; [reflexivity|].
    cbn [flat_map]. destruct (api_silent o H) as (_ & _ & ->). exact IH. }
  assert (Fr : forall F, In F (map af_id A) -> F < h_nxt (s_h s)) by (intros F; rewrite (cinv_ids _ _ _ C); apply (ci_fresh _ _ _ C)).
  assert (L34 : (forall o F, In o (h_tr (s_h s')) -> fid_of o = Some F -> F < h_nxt (s_h s')) /\ NoDup (flat_map begins (h_tr (s_h s')))).
  { unfold since in Sn. rewrite Sn. split.
    - intros o F Io Eo. apply in_app_or in Io. destruct Io as [Io|Io].
      + destruct (N1 o F Io Eo) as [I'|[Op ->]]; [apply Fr in I'; lia|]. rewrite Op in Hx. lia.
      + specialize (Lf o F Io Eo). lia.
    - rewrite flat_map_app. destruct N2 as [->|[Op ->]]; [exact Lb|]. cbn [app]. constructor; [|exact Lb].
      intros I'. apply begins_in in I'. destruct I' as (o & Io & Eo). specialize (Lf o _ Io Eo). lia. }
  destruct (runs e) eqn:Hr.
  - pose proof (run_event_ok m0 s A e (s_h s') x C Al Hr S Ea) as [W St].
    split; [|repeat split; auto; try discriminate].
    + constructor; [exact C'| |apply L34|apply L34]. unfold since in Sn. rewrite Sn, Hn. eapply stack_older; eauto.
    + intros t2 o t1 En. apply (W t2 o t1). congruence.
  - destruct Hn as [Hn Hw]. split; [|repeat split; auto; try discriminate].
    + constructor; [exact C'| |apply L34|apply L34].
      assert (Efr : as_fr x = map (refresh (s_h s')) A) by (destruct e; try discriminate; cbn [astep] in Ea; injection Ea as <-; reflexivity).
      rewrite Efr. unfold since in Sn. rewrite Sn. eapply stack_refresh; [exact Old|].
      apply (stack_see m0 (s_h s) (h_tr (s_h s))); [|exact S]. intros G _. apply see_silent.
      eapply Forall_impl; [|exact Hn]. intros o H. apply (api_silent o H).
    + intros t2 o t1 En. assert (Ho : api_obs o). { rewrite Forall_forall in Hn. apply Hn. rewrite En. apply in_or_app. right. now left. }
      destruct o; try contradiction; exact I.
Qed.

Theorem tracks_loop : forall m0 s A l s' A', (forall a, Z.odd (m0 a) = false) -> LInv m0 s A -> tracks s A l s' A' -> LInv m0 s' A'.
Proof.
  intros m0 s A l s' A' Ev L T. induction T as [|s A e s1 x l s' A' Al E Ea T IH]; [exact L|]. apply IH.
  destruct (step_loop m0 s A e s1 Ev L Al E) as (x' & new & Ea' & L' & _). congruence.
Qed.
