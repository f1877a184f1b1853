(** Context stack, local variables and iterators: the facts needed to relate
    the hook functions of ShRun.v to the activations of ShAbs.v. *)
From Coq Require Import List Bool Arith ZArith Lia Sorted.
From Verif Require Import ProtoModel ShModel ShRun ShLists ShInv ShMan ShHooks ShAdd ShRem ShHist ShSpec ShView ShAbs.
Import ListNotations.
Local Open Scope nat_scope.

(** ** The context stack *)
(** contexts in use, top first *)
Definition stk (c : cstack) : list ctx := rev (firstn (cs_depth c) (cs_slots c)).
Definition cs_ok (c : cstack) : Prop :=
  cs_depth c <= length (cs_slots c) /\ Forall (fun x => cx_task x = None) (cs_slots c).

Lemma stk_length : forall c, cs_ok c -> length (stk c) = cs_depth c.
Proof. intros c [L _]. unfold stk. rewrite rev_length, firstn_length. lia. Qed.

Lemma firstn_S_snoc : forall {A} (l : list A) n x, nth_error l n = Some x -> firstn (S n) l = firstn n l ++ [x].
Proof.
  intros A l. induction l as [|y l IH]; intros [|n] x E; cbn in *; try discriminate.
  - injection E as ->. reflexivity.
  - rewrite <- (IH n x E). reflexivity.
Qed.

Lemma stk_cons : forall c x l, cs_ok c -> stk c = x :: l ->
  cs_depth c = S (length l) /\ cs_at c (length l) = Some x /\ rev (firstn (length l) (cs_slots c)) = l.
Proof.
  intros c x l O E. pose proof (stk_length c O) as L. rewrite E in L. cbn in L. split; [lia|].
  destruct (nth_error (cs_slots c) (length l)) as [y|] eqn:N.
  2:{ apply nth_error_None in N. destruct O as [O _]. lia. }
  unfold stk in E. rewrite <- L, (firstn_S_snoc _ _ _ N), rev_app_distr in E. cbn in E. injection E as -> E. auto.
Qed.

Lemma stk_front : forall c, cs_ok c -> cs_front c = hd_error (stk c).
Proof.
  intros c O. destruct (stk c) as [|x l] eqn:E.
  - pose proof (stk_length c O) as L. rewrite E in L. cbn in L. unfold cs_front. rewrite <- L. reflexivity.
  - destruct (stk_cons c x l O E) as (D & A & _). unfold cs_front. rewrite D. exact A.
Qed.

Lemma upd_nth_forall : forall {A} (P : A -> Prop) n f l, (forall x, P x -> P (f x)) -> Forall P l -> Forall P (upd_nth n f l).
Proof.
  intros A P n f l Hf. revert n. induction l as [|x l IH]; intros [|n] F; cbn; auto; inversion F; constructor; auto.
Qed.
Lemma firstn_upd_nth : forall {A} (f : A -> A) l n, firstn n (upd_nth n f l) = firstn n l.
Proof. intros A f l. induction l as [|x l IH]; intros [|n]; cbn; auto. f_equal. apply IH. Qed.

Lemma stk_set : forall c x l y, cs_ok c -> stk c = x :: l -> cx_task y = None ->
  cs_ok (cs_set c (length l) y) /\ stk (cs_set c (length l) y) = y :: l.
Proof.
  intros c x l y O E T. destruct (stk_cons c x l O E) as (D & At & R). destruct O as [O1 O2]. split.
  - split; cbn [cs_set cs_slots cs_depth]; [rewrite upd_nth_length; exact O1|]. apply upd_nth_forall; auto.
  - unfold stk, cs_set. cbn [cs_slots cs_depth]. rewrite D.
    rewrite (firstn_S_snoc _ _ y).
    2:{ rewrite nth_error_upd_nth, Nat.eqb_refl. unfold cs_at in At. rewrite At. reflexivity. }
    rewrite firstn_upd_nth, rev_app_distr. cbn. f_equal. exact R.
Qed.
Lemma stk_set_front : forall c x l y, cs_ok c -> stk c = x :: l -> cx_task y = None ->
  cs_ok (cs_set_front c y) /\ stk (cs_set_front c y) = y :: l.
Proof.
  intros c x l y O E T. unfold cs_set_front. destruct (stk_cons c x l O E) as (D & _). rewrite D, Nat.sub_succ, Nat.sub_0_r.
  apply (stk_set c x l y O E T).
Qed.

Lemma stk_push : forall c x, cs_ok c -> cx_task x = None -> cs_ok (cs_push c x) /\ stk (cs_push c x) = x :: stk c.
Proof.
  intros c x [O1 O2] T. unfold cs_push. destruct (Nat.ltb_spec (cs_depth c) (length (cs_slots c))) as [L|L].
  - split.
    + split; cbn [cs_slots cs_depth]; [rewrite upd_nth_length; lia|apply upd_nth_forall; auto].
    + unfold stk. cbn [cs_slots cs_depth]. rewrite (firstn_S_snoc _ _ x).
      2:{ rewrite nth_error_upd_nth, Nat.eqb_refl. destruct (nth_error (cs_slots c) (cs_depth c)) eqn:N; [reflexivity|].
          apply nth_error_None in N. lia. }
      rewrite firstn_upd_nth, rev_app_distr. reflexivity.
  - assert (D : cs_depth c = length (cs_slots c)) by lia. split.
    + split; cbn [cs_slots cs_depth]; [rewrite app_length; cbn; lia|apply Forall_app; auto].
    + unfold stk. cbn [cs_slots cs_depth]. rewrite (firstn_S_snoc _ _ x).
      2:{ rewrite D. rewrite nth_error_app2, Nat.sub_diag by lia. reflexivity. }
      rewrite rev_app_distr. cbn. f_equal. f_equal. rewrite firstn_app, D, Nat.sub_diag. cbn. rewrite app_nil_r. reflexivity.
Qed.

Lemma stk_make_next : forall c old c1, cs_ok c -> cs_make_next c = (old, c1) ->
  cs_ok c1 /\ stk c1 = old :: stk c /\ cx_task old = None.
Proof.
  intros c old c1 [O1 O2] E. unfold cs_make_next in E. destruct (nth_error (cs_slots c) (cs_depth c)) as [x|] eqn:N.
  - injection E as <- <-. assert (cs_depth c < length (cs_slots c)) by (apply nth_error_Some; congruence). split; [|split].
    + split; cbn [cs_slots cs_depth]; [lia|exact O2].
    + unfold stk. cbn [cs_slots cs_depth]. rewrite (firstn_S_snoc _ _ _ N), rev_app_distr. reflexivity.
    + rewrite Forall_forall in O2. apply O2. apply (nth_error_In _ _ N).
  - injection E as <- <-. apply nth_error_None in N. assert (D : cs_depth c = length (cs_slots c)) by lia. split; [|split].
    + split; cbn [cs_slots cs_depth]; [rewrite app_length; cbn; lia|apply Forall_app; auto].
    + unfold stk. cbn [cs_slots cs_depth]. rewrite (firstn_S_snoc _ _ ctx0).
      2:{ rewrite D, nth_error_app2, Nat.sub_diag by lia. reflexivity. }
      rewrite rev_app_distr. cbn. f_equal. f_equal. rewrite firstn_app, D, Nat.sub_diag. cbn. rewrite app_nil_r. reflexivity.
    + reflexivity.
Qed.

Lemma stk_pop : forall c x l, cs_ok c -> stk c = x :: l ->
  cs_ok (Cs (cs_slots c) (cs_depth c - 1)) /\ stk (Cs (cs_slots c) (cs_depth c - 1)) = l.
Proof.
  intros c x l O E. destruct (stk_cons c x l O E) as (D & At & R). destruct O as [O1 O2]. split.
  - split; cbn [cs_slots cs_depth]; [lia|exact O2].
  - unfold stk. cbn [cs_slots cs_depth]. rewrite D, Nat.sub_succ, Nat.sub_0_r. exact R.
Qed.

Lemma map_first_firstn : forall {A} (f : A -> A) n l, firstn n (map_first n f l) = map f (firstn n l).
Proof. intros A f n. induction n as [|n IH]; intros [|x l]; cbn; auto. f_equal. apply IH. Qed.
Lemma map_first_length : forall {A} (f : A -> A) n l, length (map_first n f l) = length l.
Proof. intros A f n. induction n as [|n IH]; intros [|x l]; cbn; auto. Qed.
Lemma map_first_forall : forall {A} (P : A -> Prop) f n l, (forall x, P x -> P (f x)) -> Forall P l -> Forall P (map_first n f l).
Proof. intros A P f n l Hf. revert n. induction l as [|x l IH]; intros [|n] F; cbn; auto; inversion F; constructor; auto. Qed.

Lemma stk_map : forall f c, (forall x, cx_task (f x) = cx_task x) -> cs_ok c ->
  cs_ok (cs_map f c) /\ stk (cs_map f c) = map f (stk c).
Proof.
  intros f c Hf [O1 O2]. split.
  - split; cbn [cs_map cs_slots cs_depth]; [rewrite map_first_length; exact O1|]. apply map_first_forall; auto. intros x. rewrite Hf. auto.
  - unfold stk, cs_map. cbn [cs_slots cs_depth]. rewrite map_first_firstn, map_rev. reflexivity.
Qed.

Lemma stk_second : forall c x y l, cs_ok c -> stk c = x :: y :: l -> cs_second c = Some y.
Proof.
  intros c x y l O E. destruct (stk_cons c x _ O E) as (D & At & R). cbn [length] in *. unfold cs_second. rewrite D.
  destruct (stk_pop c x _ O E) as [O' E']. destruct (stk_cons _ _ _ O' E') as (_ & At' & _). exact At'.
Qed.

(** ** Local variables *)
Definition lk (vs : list (nat * vars)) (fid : nat) : option vars :=
  match find (var_is fid) vs with Some p => Some (snd p) | None => None end.
Definition rd (vs : list (nat * vars)) (p : option retptr) : option Z :=
  match p with
  | None => None
  | Some (RP fid o) => option_map (fun v => if o then v_oret v else v_vret v) (lk vs fid)
  end.

Lemma get_vars_lk : forall b fid, get_vars b fid = lk (b_vars b) fid.
Proof. reflexivity. Qed.
Lemma read_ret_rd : forall b p, read_ret b p = rd (b_vars b) p.
Proof.
  intros b [[g o]|]; [|reflexivity]. unfold read_ret, rd. rewrite get_vars_lk. destruct (lk (b_vars b) g); reflexivity.
Qed.

Lemma lk_upd : forall vs fid f g,
  lk (upd_first (var_is fid) (fun p => (fst p, f (snd p))) vs) g = if g =? fid then option_map f (lk vs g) else lk vs g.
Proof.
  intros vs fid f g. unfold lk. induction vs as [|[x v] vs IH].
  - cbn. destruct (g =? fid); reflexivity.
  - cbn [upd_first find]. change (var_is fid (x, v)) with (x =? fid). change (var_is g (x, v)) with (x =? g).
    destruct (Nat.eqb_spec x fid) as [->|Nx].
    + cbn [fst snd find]. change (var_is g (fid, f v)) with (fid =? g). rewrite (Nat.eqb_sym fid g).
      destruct (g =? fid); reflexivity.
    + cbn [find]. change (var_is g (x, v)) with (x =? g). destruct (Nat.eqb_spec x g) as [->|].
      * destruct (Nat.eqb_spec g fid); [congruence|reflexivity].
      * exact IH.
Qed.
Lemma lk_del : forall vs fid g, g <> fid -> lk (del_first (var_is fid) vs) g = lk vs g.
Proof.
  intros vs fid g N. unfold lk. induction vs as [|[x v] vs IH]; [reflexivity|]. cbn [del_first].
  change (var_is fid (x, v)) with (x =? fid). destruct (x =? fid) eqn:Ex.
  - apply Nat.eqb_eq in Ex. subst x. cbn [find]. change (var_is g (fid, v)) with (fid =? g).
    destruct (fid =? g) eqn:Eg; [apply Nat.eqb_eq in Eg; congruence|reflexivity].
  - cbn [find]. change (var_is g (x, v)) with (x =? g). destruct (x =? g); [reflexivity|exact IH].
Qed.
Lemma lk_cons : forall fid v vs g, lk ((fid, v) :: vs) g = if fid =? g then Some v else lk vs g.
Proof. intros fid v vs g. unfold lk. cbn [find]. change (var_is g (fid, v)) with (fid =? g). destruct (fid =? g); reflexivity. Qed.

Definition meta_same (o o' : option vars) : Prop :=
  match o, o' with
  | Some v, Some v' => v_status v' = v_status v /\ v_prev v' = v_prev v /\ v_cur v' = v_cur v
  | None, None => True
  | _, _ => False
  end.
Lemma meta_same_refl : forall o, meta_same o o.
Proof. intros [v|]; cbn; auto. Qed.
Lemma meta_same_trans : forall a b c, meta_same a b -> meta_same b c -> meta_same a c.
Proof. intros [a|] [b|] [c|]; cbn; try tauto. intuition congruence. Qed.

(** [vs'] differs from [vs] only in activation [fid] and in the return values
    of the activations [ch]. *)
Definition vmod (fid : nat) (ch : list nat) (vs vs' : list (nat * vars)) : Prop :=
  (forall g, ~ In g ch -> lk vs' g = lk vs g) /\ (forall g, g <> fid -> meta_same (lk vs g) (lk vs' g)).
Lemma vmod_refl : forall fid ch vs, vmod fid ch vs vs.
Proof. intros. split; auto. intros. apply meta_same_refl. Qed.
Lemma vmod_trans : forall fid ch a b c, vmod fid ch a b -> vmod fid ch b c -> vmod fid ch a c.
Proof.
  intros fid ch a b c [A1 A2] [B1 B2]. split.
  - intros g N. rewrite B1, A1; auto.
  - intros g N. eapply meta_same_trans; eauto.
Qed.
Lemma vmod_upd : forall fid ch vs f, In fid ch ->
  vmod fid ch vs (upd_first (var_is fid) (fun p => (fst p, f (snd p))) vs).
Proof.
  intros fid ch vs f Hin. split; intros g N; rewrite lk_upd; destruct (Nat.eqb_spec g fid) as [->|]; try congruence; try contradiction.
  apply meta_same_refl.
Qed.
Lemma vmod_del : forall fid ch vs, In fid ch -> vmod fid ch vs (del_first (var_is fid) vs).
Proof.
  intros fid ch vs Hin. split; intros g N.
  - apply lk_del. intros ->. contradiction.
  - rewrite lk_del by exact N. apply meta_same_refl.
Qed.

(** A write through a pointer into one of the activations [ch]. *)
Lemma write_spec : forall b fid ch g o z, In g ch -> lk (b_vars b) g <> None ->
  exists b', write_ret b (Some (RP g o)) z = Some b' /\ b_k b' = b_k b /\ b_pend b' = b_pend b /\
    vmod fid ch (b_vars b) (b_vars b') /\ (forall x, meta_same (lk (b_vars b) x) (lk (b_vars b') x)) /\
    rd (b_vars b') (Some (RP g o)) = Some z.
Proof.
  intros b fid ch g o z Hg L. unfold write_ret. rewrite get_vars_lk. destruct (lk (b_vars b) g) as [v|] eqn:E; [|congruence].
  set (f := if o then vs_oret z else vs_vret z). exists (upd_vars b g f). split; [reflexivity|]. split; [reflexivity|]. split; [reflexivity|].
  cbn [upd_vars set_vars b_vars].
  assert (Ms : forall x, meta_same (lk (b_vars b) x) (lk (upd_first (var_is g) (fun p => (fst p, f (snd p))) (b_vars b)) x)).
  { intros x. rewrite lk_upd. destruct (x =? g); [|apply meta_same_refl]. destruct (lk (b_vars b) x); cbn; auto.
    unfold f. destruct o; cbn; auto. }
  split; [|split].
  - split; [|intros x _; apply Ms]. intros x Nx. rewrite lk_upd. destruct (Nat.eqb_spec x g) as [->|]; [contradiction|reflexivity].
  - exact Ms.
  - cbn [rd]. rewrite lk_upd, Nat.eqb_refl, E. cbn. unfold f. destruct o; reflexivity.
Qed.

(** ** Iterators *)
(** The rest of the list after an iterator is the hooks later than [n]. *)
Definition at_iter (n : nat) (i : iface) (post : bool) (it : iter) : Prop :=
  adv it (if_obj i) post (hooks_of post i) = Some (filter (later n) (hooks_of post i)).

Lemma filter_later_all : forall n l, (forall k, In k l -> n < hk_nid k) -> filter (later n) l = l.
Proof.
  intros n l. induction l as [|k l IH]; intros H; [reflexivity|]. cbn [filter]. unfold later at 1.
  destruct (Nat.ltb_spec n (hk_nid k)) as [L|L]; [rewrite IH; auto; intros; apply H; right; auto|].
  specialize (H k (or_introl eq_refl)). lia.
Qed.
Lemma after_node_sorted : forall l n, StronglySorted lt (map hk_nid l) -> In n (map hk_nid l) ->
  after_node n l = Some (filter (later n) l).
Proof.
  intros l n. induction l as [|k l IH]; intros S Hn; [contradiction|]. cbn [map] in *. inversion S as [|x y S' F]; subst.
  cbn [after_node filter]. unfold later at 1. destruct (Nat.eqb_spec (hk_nid k) n) as [E|E].
  - subst n. rewrite Nat.ltb_irrefl. rewrite filter_later_all; [reflexivity|].
    intros x Hx. rewrite Forall_forall in F. apply F. apply in_map. exact Hx.
  - destruct Hn as [Hn|Hn]; [congruence|]. rewrite Forall_forall in F. specialize (F n Hn).
    destruct (Nat.ltb_spec n (hk_nid k)) as [L|L]; [lia|]. apply IH; auto.
Qed.

Lemma skip_paused_find : forall l,
  match skip_paused l with
  | [] => find (fun k => negb (hk_paused k)) l = None
  | k :: _ => find (fun k => negb (hk_paused k)) l = Some k
  end.
Proof.
  induction l as [|k l IH]; [reflexivity|]. cbn [skip_paused find]. destruct (hk_paused k); cbn [negb]; [exact IH|reflexivity].
Qed.

Lemma find_map_pair : forall (b : bool) l,
  find (fun x => negb (hk_paused (snd x))) (map (pair b) l) = option_map (pair b) (find (fun k => negb (hk_paused k)) l).
Proof. intros b l. induction l as [|k l IH]; [reflexivity|]. cbn [map find snd]. destruct (negb (hk_paused k)); [reflexivity|exact IH]. Qed.
Lemma find_app : forall {A} (p : A -> bool) l1 l2,
  find p (l1 ++ l2) = match find p l1 with Some x => Some x | None => find p l2 end.
Proof. intros A p l1 l2. induction l1 as [|x l1 IH]; [reflexivity|]. cbn. destruct (p x); [reflexivity|exact IH]. Qed.

(** *** What the context of an activation that still runs handlers looks like *)
Record live (h : hs) (v : vfn) (c : ctx) (a : ahook) : Prop := {
  lv_in : In v (h_vfns h); lv_ptr : vf_ptr v = a_slot a; lv_obj : cx_vfn c = Some (vf_obj v); lv_this : cx_this c = a_this a;
  lv_seen : if a_seen a then exists i, find_iface v (a_this a) = Some i /\ cx_iface c = Some (if_obj i) else cx_iface c = None }.

(** The context is at the place of the loop after handler [from]; [rec]: and
    the loop is being continued by a recall. *)
Definition pos_ok (v : vfn) (c : ctx) (a : ahook) (post : bool) (from : option (bool * nat)) : Prop :=
  match from with
  | None => cx_state c = (if post then SOrigCall else SBorn)
  | Some (false, n) =>
      (cx_state c = (if post then SPost else SPre) \/ (post = false /\ cx_state c = SRecPre)) /\
      (a_seen a = true -> forall i, find_iface v (a_this a) = Some i -> at_iter n i post (cx_iter c))
  | Some (true, n) =>
      (cx_state c = (if post then SPostVP else SPreVP) \/ (post = false /\ cx_state c = SRecPreVP)) /\
      (forall i, find_iface v 0 = Some i -> at_iter n i post (cx_iter c))
  end.

Definition ctx_keeps (c c' : ctx) : Prop :=
  cx_vfn c' = cx_vfn c /\ cx_iface c' = cx_iface c /\ cx_frame c' = cx_frame c /\ cx_this c' = cx_this c /\
  cx_orig c' = cx_orig c /\ cx_over c' = cx_over c /\ cx_call_orig c' = cx_call_orig c /\ cx_task c' = cx_task c.

Lemma find_iface_spec : forall h v p i, WH h -> In v (h_vfns h) -> (find_iface v p = Some i <-> In i (vf_ifaces v) /\ if_ptr i = p).
Proof. intros h v p i W Hv. apply (find_key (iface_at p) if_ptr p); [apply sel_iface_at|apply (wh_iptr h W v Hv)]. Qed.

Lemma find_iface_installed : forall h v p, WH h -> In v (h_vfns h) ->
  forall post, installed h (vf_ptr v) p post = match find_iface v p with Some i => hooks_of post i | None => [] end.
Proof.
  intros h v p W Hv post. destruct (find_iface v p) as [i|] eqn:E.
  - apply (find_iface_spec h v p i W Hv) in E. destruct E as [Hi <-]. apply installed_iface; auto.
  - destruct (installed_cases h (vf_ptr v) p post W) as [(v' & i & H1 & H2 & H3 & H4 & _)|X]; [|exact X].
    assert (v' = v) by (apply (nodup_key_inj vf_ptr (h_vfns h)); auto; apply (wh_vptr h W)). subst v'.
    assert (C : find_iface v p = Some i) by (apply (find_iface_spec h v p i W Hv); auto). congruence.
Qed.

Lemma obj_iface_of : forall h v i, WH h -> In v (h_vfns h) -> In i (vf_ifaces v) -> obj_iface h (if_obj i) = Some i.
Proof.
  intros h v i W Hv Hi. unfold obj_iface. destruct (find _ _) as [j|] eqn:E.
  - apply find_some in E. destruct E as [Hj Ej]. apply Nat.eqb_eq in Ej. apply in_flat_map in Hj. destruct Hj as (w & Hw & Hj).
    destruct (wh_iobj h W w j v i Hw Hj Hv Hi Ej) as [Ep Ei].
    assert (w = v) by (apply (nodup_key_inj vf_ptr (h_vfns h)); auto; apply (wh_vptr h W)). subst w. f_equal.
    apply (nodup_key_inj if_ptr (vf_ifaces v)); auto. apply (wh_iptr h W v Hv).
  - exfalso. pose proof (find_none _ _ E i) as C. cbn beta in C. rewrite Nat.eqb_refl in C.
    discriminate C. apply in_flat_map. eauto.
Qed.

Lemma get_vfn_of : forall h v, WH h -> In v (h_vfns h) -> get_vfn h (vf_obj v) = Some v.
Proof. intros h v W Hv. apply (find_key (vfn_is (vf_obj v)) vf_obj (vf_obj v)); [apply sel_vfn_is|apply (wh_vobj h W)|auto]. Qed.

(** What a context looks like after a handler was chosen. *)
Definition chosen (c c' : ctx) (st : cstate) (this : Z) (k : hook) : Prop :=
  ctx_keeps c c' /\ cx_state c' = st /\ cx_iter c' = INode (hk_nid k) /\ cx_ifp c' = Some (this - hk_offs k)%Z.

Lemma next_in_spec : forall i post st c n l, adv (cx_iter c) (if_obj i) post (hooks_of post i) = Some l -> n = l ->
  match find (fun k => negb (hk_paused k)) l with
  | Some k => exists c', next_in i post st c = Some (c', Some k) /\ chosen c c' st (cx_this c) k
  | None => exists c', next_in i post st c = Some (c', None) /\ ctx_keeps c c' /\ cx_ifp c' = cx_ifp c
  end.
Proof.
  intros i post st c n l A _. unfold next_in. rewrite A. pose proof (skip_paused_find l) as S.
  destruct (skip_paused l) as [|k r]; rewrite S.
  - eexists. split; [reflexivity|]. split; [|reflexivity]. repeat split.
  - eexists. split; [reflexivity|]. split; [|split; [|split]]; reflexivity || (repeat split).
Qed.

Lemma ctx_keeps_trans : forall a b c, ctx_keeps a b -> ctx_keeps b c -> ctx_keeps a c.
Proof. intros a b c (A1&A2&A3&A4&A5&A6&A7&A8) (B1&B2&B3&B4&B5&B6&B7&B8). repeat split; congruence. Qed.
Lemma keeps_iter : forall c it, ctx_keeps c (cx_set_iter c it).
Proof. intros. repeat split. Qed.
Lemma keeps_state : forall c st, ctx_keeps c (cx_set_state c st).
Proof. intros. repeat split. Qed.

(** The loop over the vtable-wide list. *)
Lemma next_vp_spec : forall h v c post l, WH h -> In v (h_vfns h) -> cx_vfn c = Some (vf_obj v) ->
  (forall i, find_iface v 0 = Some i -> adv (cx_iter c) (if_obj i) post (hooks_of post i) = Some l) ->
  (find_iface v 0 = None -> l = []) ->
  match find (fun k => negb (hk_paused k)) l with
  | Some k => exists c', next_vp h post c = Some (c', Some k) /\ chosen c c' (if post then SPostVP else SPreVP) (cx_this c) k
  | None => exists c', next_vp h post c = Some (c', None) /\ ctx_keeps c c' /\ cx_state c' = (if post then SDead else SOrigCall)
  end.
Proof.
  intros h v c post l W Hv Ev H1 H2. unfold next_vp. rewrite Ev, (get_vfn_of h v W Hv). destruct (find_iface v 0) as [i|].
  - specialize (H1 i eq_refl). pose proof (next_in_spec i post (if post then SPostVP else SPreVP) c l l H1 eq_refl) as N.
    destruct (find _ l) as [k|].
    + destruct N as (c' & E & Ch). rewrite E. exists c'. auto.
    + destruct N as (c' & E & K & _). rewrite E. eexists. split; [reflexivity|]. split; [|reflexivity].
      apply (ctx_keeps_trans _ _ _ K). apply keeps_state.
  - rewrite (H2 eq_refl). cbn [find]. eexists. split; [reflexivity|]. split; [apply keeps_state|reflexivity].
Qed.

Lemma next_inst_spec : forall h v c post l a, WH h -> live h v c a ->
  (a_seen a = true -> forall i, find_iface v (a_this a) = Some i -> adv (cx_iter c) (if_obj i) post (hooks_of post i) = Some l) ->
  (a_seen a = false -> l = []) ->
  match find (fun x => negb (hk_paused (snd x))) (map (pair false) l ++ map (pair true) (installed h (a_slot a) 0 post)) with
  | Some (vp, k) => exists c', next_inst h post c = Some (c', Some k) /\
      chosen c c' (if vp then (if post then SPostVP else SPreVP) else (if post then SPost else SPre)) (a_this a) k
  | None => exists c', next_inst h post c = Some (c', None) /\ ctx_keeps c c' /\ cx_state c' = (if post then SDead else SOrigCall)
  end.
Proof.
  intros h v c post l a W [Hv Ep Eo Et Se] H1 H2. rewrite find_app, !find_map_pair.
  assert (VP : forall c1, ctx_keeps c c1 ->
    match option_map (pair true) (find (fun k => negb (hk_paused k)) (installed h (a_slot a) 0 post)) with
    | Some (vp, k) => exists c', next_vp h post (cx_set_iter c1 INull) = Some (c', Some k) /\
        chosen c c' (if vp then (if post then SPostVP else SPreVP) else (if post then SPost else SPre)) (a_this a) k
    | None => exists c', next_vp h post (cx_set_iter c1 INull) = Some (c', None) /\ ctx_keeps c c' /\ cx_state c' = (if post then SDead else SOrigCall)
    end).
  { intros c1 K. pose proof K as (K1 & K2 & K3 & K4 & _).
    pose proof (next_vp_spec h v (cx_set_iter c1 INull) post (installed h (a_slot a) 0 post) W Hv) as N.
    cbn [cx_set_iter cx_vfn cx_iter cx_this] in N.
    rewrite K1 in N. specialize (N Eo). rewrite <- Ep in *.
    pose proof (find_iface_installed h v 0 W Hv post) as FI.
    assert (P1 : forall i, find_iface v 0 = Some i -> adv INull (if_obj i) post (hooks_of post i) = Some (installed h (vf_ptr v) 0 post)).
    { intros i E. rewrite E in FI. rewrite FI. reflexivity. }
    assert (P2 : find_iface v 0 = None -> installed h (vf_ptr v) 0 post = []). { intros E. rewrite E in FI. exact FI. }
    specialize (N P1 P2). destruct (find _ (installed h (vf_ptr v) 0 post)) as [k|]; cbn [option_map].
    - destruct N as (c' & E & (Kc & St & It & Ip)). exists c'. split; [exact E|]. split; [|split; [exact St|split; [exact It|]]].
      + apply (ctx_keeps_trans _ _ _ K). apply (ctx_keeps_trans _ _ _ (keeps_iter c1 INull) Kc).
      + rewrite Ip. rewrite K4, Et. reflexivity.
    - destruct N as (c' & E & Kc & St). exists c'. split; [exact E|]. split; [|exact St].
      apply (ctx_keeps_trans _ _ _ K). apply (ctx_keeps_trans _ _ _ (keeps_iter c1 INull) Kc). }
  unfold next_inst. destruct (a_seen a) eqn:As.
  - destruct Se as (i & Fi & Ei). rewrite Ei. pose proof (proj1 (find_iface_spec h v _ i W Hv) Fi) as [Hi _].
    rewrite (obj_iface_of h v i W Hv Hi). specialize (H1 eq_refl i Fi).
    pose proof (next_in_spec i post (if post then SPost else SPre) c l l H1 eq_refl) as N.
    destruct (find _ l) as [k|]; cbn [option_map].
    + destruct N as (c' & E & Ch). rewrite E. exists c'. split; [reflexivity|]. rewrite <- Et. exact Ch.
    + destruct N as (c' & E & K & _). rewrite E. apply VP. exact K.
  - rewrite Se, (H2 eq_refl). cbn [find option_map]. apply VP. repeat split.
Qed.

Definition run_state (post vp : bool) : cstate :=
  if vp then (if post then SPostVP else SPreVP) else (if post then SPost else SPre).

(** GetNext does what [next] says. *)
Theorem get_next_spec : forall h v c a post from, WH h -> live h v c a -> a_alive a = true -> pos_ok v c a post from ->
  match next h a post from with
  | Some (vp, k) => exists c', get_next h c = Some (c', Some k) /\ chosen c c' (run_state post vp) (a_this a) k
  | None => exists c', get_next h c = Some (c', None) /\ ctx_keeps c c' /\ cx_state c' = (if post then SDead else SOrigCall)
  end.
Proof.
  intros h v c a post from W L Al P. unfold next, todo. rewrite Al. pose proof L as [Hv Ep Eo Et Se].
  pose proof (find_iface_installed h v (a_this a) W Hv post) as FI. rewrite Ep in FI.
  pose proof (find_iface_installed h v 0 W Hv post) as FV. rewrite Ep in FV.
  assert (Inst : forall c1 l, ctx_keeps c c1 ->
    (a_seen a = true -> forall i, find_iface v (a_this a) = Some i -> adv (cx_iter c1) (if_obj i) post (hooks_of post i) = Some l) ->
    (a_seen a = false -> l = []) -> get_next h c = next_inst h post c1 ->
    match find (fun x => negb (hk_paused (snd x))) (map (pair false) l ++ map (pair true) (installed h (a_slot a) 0 post)) with
    | Some (vp, k) => exists c', get_next h c = Some (c', Some k) /\ chosen c c' (run_state post vp) (a_this a) k
    | None => exists c', get_next h c = Some (c', None) /\ ctx_keeps c c' /\ cx_state c' = (if post then SDead else SOrigCall)
    end).
  { intros c1 l K H1 H2 E. rewrite E. pose proof K as (K1 & K2 & K3 & K4 & K5 & K6 & K7 & K8).
    assert (L1 : live h v c1 a). { constructor; auto; try congruence. rewrite K2. exact Se. }
    pose proof (next_inst_spec h v c1 post l a W L1 H1 H2) as N.
    destruct (find _ _) as [[vp k]|].
    - destruct N as (c' & En & (Kc & R)). exists c'. split; [exact En|]. split; [apply (ctx_keeps_trans _ _ _ K Kc)|exact R].
    - destruct N as (c' & En & Kc & St). exists c'. split; [exact En|]. split; [apply (ctx_keeps_trans _ _ _ K Kc)|exact St]. }
  destruct from as [[[|] n]|]; cbn [pos_ok] in P.
  - destruct P as [St It].
    assert (E : get_next h c = next_vp h post c). { unfold get_next. destruct St as [St|[Pf St]]; rewrite St; [destruct post|rewrite Pf]; reflexivity. }
    rewrite E, find_map_pair.
    pose proof (next_vp_spec h v c post (filter (later n) (installed h (a_slot a) 0 post)) W Hv Eo) as N.
    assert (P1 : forall i, find_iface v 0 = Some i -> adv (cx_iter c) (if_obj i) post (hooks_of post i) = Some (filter (later n) (installed h (a_slot a) 0 post))).
    { intros i Fi. rewrite Fi in FV. rewrite FV. apply It. exact Fi. }
    assert (P2 : find_iface v 0 = None -> filter (later n) (installed h (a_slot a) 0 post) = []). { intros Fi. rewrite Fi in FV. rewrite FV. reflexivity. }
    specialize (N P1 P2). destruct (find _ (filter _ _)) as [k|]; cbn [option_map].
    + destruct N as (c' & En & Ch). exists c'. split; [exact En|]. rewrite <- Et. exact Ch.
    + exact N.
  - destruct P as [St It]. apply (Inst c).
    + repeat split.
    + intros As i Fi. rewrite As, Fi in *. rewrite FI. apply It; auto.
    + intros As. rewrite As. reflexivity.
    + unfold get_next. destruct St as [St|[Pf St]]; rewrite St; [destruct post|rewrite Pf]; reflexivity.
  - apply (Inst (cx_set_iter c INull)).
    + repeat split.
    + intros As i Fi. rewrite As, Fi in *. rewrite FI. reflexivity.
    + intros As. rewrite As. reflexivity.
    + unfold get_next. rewrite P. destruct post; reflexivity.
Qed.
