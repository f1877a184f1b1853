(** As long as the hooks on a function do not change, a call runs exactly the
    hooks that are there, in order. *)
From Coq Require Import List Bool Arith ZArith Lia.
From Verif Require Import Base ProtoModel ShModel ShRun ShLists ShInv ShHooks ShAdd ShApi ShHist ShGood ShSpec ShView ShAbs ShRel ShCalls ShMoves ShChange ShFollow ShRefine ShTrace ShLoop ShAhead.
Import ListNotations.
Local Open Scope nat_scope.

(** Runs that stay within [P] *)
Inductive during (P : state -> Prop) : state -> list aframe -> list event -> state -> list aframe -> Prop :=
| du_nil : forall s A, P s -> during P s A [] s A
| du_step : forall s A e s1 x l s' A', P s -> allowed (s_h s) A e -> step s e = Ok s1 ->
    astep (s_h s) (s_h s1) A (b_pend (s_b s)) e = Some x -> during P s1 (as_fr x) l s' A' -> during P s A (e :: l) s' A'.
Lemma during_tracks : forall P s A l s' A', during P s A l s' A' -> tracks s A l s' A'.
Proof. intros P s A l s' A' D. induction D; [constructor|econstructor; eauto]. Qed.
Lemma during_start : forall P s A l s' A', during P s A l s' A' -> P s.
Proof. intros P s A l s' A' D. now destruct D. Qed.

(** ** What an acting function says about calls below it: nothing *)
Lemma unwind_quiet : forall h N f B aft z w, is_hook f -> is_rec (lastaft aft N) = false ->
  emits (map af_id N) w (as_w (a_unwind h aft z (N ++ f :: B) w)).
Proof.
  intros h. induction N as [|g N IH]; intros f B aft z w Hf L; destruct aft; cbn [a_unwind app as_w] in *; try apply emits_refl.
  - unfold a_reset. destruct (take_ign (f :: B)); cbn [as_w]; [apply emits_close|apply emits_refl].
  - discriminate L.
  - unfold a_reset. destruct (take_ign (g :: N ++ f :: B)); cbn [as_w]; [apply emits_close|apply emits_refl].
  - destruct (af_hook g) as [a|]; [|apply emits_refl].
    pose proof (emits_done h (af_id g) (depth (N ++ f :: B)) (a_with_v (vs_cur MSupercede (a_v a)) a) z w) as M.
    apply (emits_more _ (map af_id (g :: N))) in M; [|intros x [<-|[]]; now left].
    destruct (a_done _ _ _ _ _ _) as [a' w'|z' w']; cbn [as_w out_w] in *; [exact M|].
    eapply emits_trans; [exact M|]. apply (emits_more (map af_id N)); [intros x Hx; now right|]. apply IH; auto.
Qed.
Lemma resume_quiet : forall h o F aft N f B w, emits [F] w (out_w o) -> is_hook f -> is_rec (lastaft aft N) = false ->
  emits (F :: map af_id N) w (as_w (a_resume h o F aft (N ++ f :: B))).
Proof.
  intros h o F aft N f B w M Hf L. apply (emits_more _ (F :: map af_id N)) in M; [|intros x [<-|[]]; now left].
  destruct o as [a w'|z w']; cbn [a_resume as_w out_w] in *; [exact M|].
  eapply emits_trans; [exact M|]. apply (emits_more (map af_id N)); [intros x Hx; now right|]. now apply unwind_quiet.
Qed.
(** nothing about calls other than those in [L] *)
Definition quiet (L : list nat) (l : list obs) : Prop := forall o F, In o l -> fid_of o = Some F -> In F L.
Lemma quiet_see : forall L l t G, quiet L l -> ~ In G L -> see (l ++ t) G = see t G.
Proof.
  intros L l t G. induction l as [|o l IH]; intros Q NI; [reflexivity|]. cbn [app see].
  assert (Q' : quiet L l) by (intros o' F' I' E'; apply (Q o' F'); [now right|exact E']).
  assert (Qo : forall F, fid_of o = Some F -> F =? G = false).
  { intros F E. apply Nat.eqb_neq. intros ->. apply NI. apply (Q o G); [now left|exact E]. }
  destruct o; cbn [fid_of] in Qo; try rewrite (Qo _ eq_refl); auto.
Qed.
Lemma emits_quiet : forall L w w' M, emits L w w' -> quiet M (w_obs w) -> incl L M -> quiet M (w_obs w').
Proof.
  intros L w w' M (l & E & Fl) Q I' o F Io Eo. rewrite E in Io. apply in_app_or in Io. destruct Io as [Io|Io].
  - rewrite Forall_forall in Fl. destruct (Fl o Io) as [_ H]. apply I'. auto.
  - eapply Q; eauto.
Qed.
Lemma quiet_nil : forall L, quiet L [].
Proof. intros L o F []. Qed.
Lemma quiet_cons : forall L o l, (forall F, fid_of o = Some F -> In F L) -> quiet L l -> quiet L (o :: l).
Proof. intros L o l H Q o' F [<-|I'] E; eauto. Qed.

(** Calls made from the top, and everything the top does when it is not [f] *)
Definition calls (e : event) : bool := match e with ECall _ _ _ _ | ESHCall _ _ _ _ => true | _ => false end.
Lemma astep_quiet : forall h h' N f B p e x, runs e = true -> is_hook f -> N <> [] \/ calls e = true -> is_rec (lastaft APlain N) = false ->
  astep h h' (N ++ f :: B) p e = Some x ->
  (exists N', as_fr x = N' ++ f :: B) /\ quiet (h_nxt h :: map af_id N) (w_obs (as_w x)).
Proof.
  intros h h' N f B p e x Hr Hf Nn L E.
  assert (Rq : forall o F aft N1 w M, out_w o = M -> emits [F] w (out_w o) -> quiet (h_nxt h :: map af_id N) (w_obs w) ->
     is_rec (lastaft aft N1) = false -> In F (h_nxt h :: map af_id N) -> incl (map af_id N1) (h_nxt h :: map af_id N) ->
     (exists N', as_fr (a_resume h o F aft (N1 ++ f :: B)) = N' ++ f :: B) /\ quiet (h_nxt h :: map af_id N) (w_obs (as_w (a_resume h o F aft (N1 ++ f :: B))))).
  { intros o F aft N1 w M _ Em Q La I1 I2. split; [now apply resume_below|].
    eapply emits_quiet; [eapply (resume_quiet h o F aft N1 f B w); eauto|exact Q|]. intros g [<-|Hg]; auto. }
  assert (Q1 : forall o, (forall F, fid_of o = Some F -> F = h_nxt h) -> quiet (h_nxt h :: map af_id N) [o]).
  { intros o H. apply quiet_cons; [|apply quiet_nil]. intros F E'. left. symmetry. auto. }
  assert (Inc : incl (map af_id N) (h_nxt h :: map af_id N)) by (intros g Hg; now right).
  destruct e as [this vo idx q|this vo idx q|z|m|res val offs vo idx q| | | | | | | | | |]; try discriminate; cbn [astep] in E.
  - destruct (is_hookcode _).
    2:{ injection E as <-. split; [exists (AFrame (h_nxt h) APlain false None :: N); reflexivity|]. apply Q1. intros F E'. injection E' as <-. reflexivity. }
    destruct (take_ign (N ++ f :: B)) as [A1|] eqn:Et; injection E as <-.
    + destruct (take_ign_below N f B A1 Hf Et) as (N1 & -> & Ln & La). unfold a_ignored.
      eapply Rq; [reflexivity|apply emits_pre|apply Q1; intros F E'; now injection E' as <-|now rewrite La|now left|].
      pose proof (take_ign_ids _ _ Et) as Ei. rewrite !map_app in Ei.
      assert (Em : map af_id N1 = map af_id N).
      { apply (f_equal (firstn (length N))) in Ei. rewrite <- Ln in Ei at 1. rewrite <- (map_length af_id N1) in Ei at 1.
        rewrite firstn_app, Nat.sub_diag, firstn_all, firstn_O, app_nil_r in Ei. rewrite <- (map_length af_id N) in Ei at 1.
        rewrite firstn_app, Nat.sub_diag, firstn_all, firstn_O, app_nil_r in Ei. exact Ei. }
      rewrite Em. exact Inc.
    + unfold a_hooked. eapply (Rq _ _ APlain N); [reflexivity|apply emits_pre|apply Q1; intros F E'; now injection E' as <-|exact L|now left|exact Inc].
  - injection E as <-. destruct (is_hookcode _).
    2:{ split; [exists (AFrame (h_nxt h) AReset true None :: N); reflexivity|]. apply Q1. intros F E'. injection E' as <-. reflexivity. }
    unfold a_ignored. eapply (Rq _ _ AReset N); [reflexivity|apply emits_pre|apply Q1; intros F E'; now injection E' as <-| |now left|exact Inc].
    destruct N as [|g N]; [reflexivity|exact L].
  - destruct Nn as [Nn|Nn]; [|discriminate]. destruct N as [|g N]; [congruence|]. cbn [app lastaft] in *.
    assert (Ig : In (af_id g) (h_nxt h :: af_id g :: map af_id N)) by (right; now left).
    assert (Ig' : incl (map af_id N) (h_nxt h :: af_id g :: map af_id N)) by (intros y Hy; right; now right).
    destruct (af_hook g) as [a|].
    + destruct (a_run a) as [r|]; injection E as <-.
      * eapply Rq; [reflexivity|apply emits_done|apply quiet_nil|exact L|exact Ig|exact Ig'].
      * eapply Rq; [reflexivity|apply emits_begin_post| |exact L|exact Ig|exact Ig'].
        apply quiet_cons; [intros F E'; injection E' as <-; exact Ig|apply quiet_nil].
    + injection E as <-. assert (Qw : quiet (h_nxt h :: af_id g :: map af_id N) (w_obs (wemit (ONativeRet (af_id g) z) (World p [])))).
      { apply quiet_cons; [intros F E'; injection E' as <-; exact Ig|apply quiet_nil]. }
      destruct (af_ign g).
      * destruct (af_after g); cbn [as_fr as_w]; split; try exact Qw; try (exists (g :: N); reflexivity); try (exists N; reflexivity).
        eapply emits_quiet; [apply (emits_close [])|exact Qw|intros y []].
      * split; [now apply unwind_below|]. eapply emits_quiet; [eapply unwind_quiet; eauto|exact Qw|exact Ig'].
  - destruct Nn as [Nn|Nn]; [|discriminate]. destruct N as [|g N]; [congruence|]. cbn [app] in *.
    destruct (af_hook g) as [a|]; [|discriminate]. destruct (a_run a); [|discriminate]. injection E as <-. cbn [as_fr as_w w_obs].
    split; [eexists (_ :: N); reflexivity|apply quiet_nil].
  - destruct Nn as [Nn|Nn]; [|discriminate]. destruct N as [|g N]; [congruence|]. cbn [app lastaft map] in *.
    destruct (af_hook g) as [a|]; [|discriminate]. destruct (a_run a) as [[vp n]|]; [|discriminate]. injection E as <-.
    unfold a_recall. set (g1 := AFrame (af_id g) (af_after g) false _).
    assert (Em : forall d1 d2 w2, emits [h_nxt h] w2 (out_w (match a_phase a with
       | PPost => a_begin_post h (h_nxt h) d1 (d2 false) (a_run a) w2
       | _ => a_pre h (h_nxt h) d1 (d2 true) (a_run a) w2 end))).
    { intros d1 d2 w2. destruct (a_phase a); [apply emits_pre|apply emits_pre|apply emits_begin_post]. }
    eapply (Rq _ _ ARecall (g1 :: N)); [reflexivity|apply (Em _ (fun c => AHook _ _ _ _ _ _ c _ _ _ _))| |exact L|now left|].
    + apply quiet_cons; [intros F E'; injection E' as <-; now left|]. apply quiet_cons; [intros F E'; injection E' as <-; right; now left|apply quiet_nil].
    + cbn [map]. intros y Hy. right. exact Hy.
Qed.
Lemma astep_ids : forall h h' A p e x, astep h h' A p e = Some x -> incl (map af_id (as_fr x)) (h_nxt h :: map af_id A).
Proof.
  intros h h' A p e x E.
  assert (R : forall h0, incl (map af_id (map (refresh h0) A)) (h_nxt h :: map af_id A)).
  { intros h0. rewrite map_map. apply incl_tl. apply incl_refl. }
  destruct e as [this vo idx q|this vo idx q|z|m|res val offs vo idx q| | | | | | | | | |]; cbn [astep] in E; try (injection E as <-; apply R).
  - injection E as <-. destruct (is_hookcode _); [|apply incl_refl]. destruct (take_ign A) as [A1|] eqn:Et; [|apply resume_ids].
    rewrite <- (take_ign_ids _ _ Et). apply resume_ids.
  - injection E as <-. destruct (is_hookcode _); [|apply incl_refl]. apply resume_ids.
  - destruct A as [|f A]; [discriminate|]. apply incl_tl. cbn [map]. destruct (af_hook f) as [a|].
    + destruct (a_run a); injection E as <-; apply resume_ids.
    + injection E as <-. destruct (af_ign f); [destruct (af_after f)|]; cbn [as_fr map]; try apply incl_refl; apply incl_tl; try apply incl_refl. apply unwind_ids.
  - destruct A as [|f A]; [discriminate|]. destruct (af_hook f) as [a|]; [|discriminate]. destruct (a_run a); [|discriminate]. injection E as <-. apply incl_tl. apply incl_refl.
  - destruct A as [|f A]; [discriminate|]. destruct (af_hook f) as [a|]; [|discriminate]. destruct (a_run a) as [[vp n]|]; [|discriminate]. injection E as <-.
    unfold a_recall. eapply incl_tran; [apply resume_ids|]. cbn [map af_id]. apply incl_refl.
Qed.

(** Recalling leaves a mark. *)
Lemma rec_mono : forall l t F, ~ In F (flat_map begins l) -> vw_rec (see t F) = true -> vw_rec (see (l ++ t) F) = true.
Proof.
  induction l as [|o l IH]; intros t F NI R; [exact R|]. cbn [flat_map] in NI. assert (NI' : ~ In F (flat_map begins l)) by (intros H; apply NI; apply in_or_app; now right).
  specialize (IH t F NI' R). cbn [app see]. destruct o; auto; try (destruct (_ =? F) eqn:Ef; auto); try exact IH.
  - exfalso. apply Nat.eqb_eq in Ef. apply NI. cbn. now left.
  - unfold vw_call. destruct (vw_post _); exact IH.
  - unfold vw_result. destruct (vw_post _); exact IH.
Qed.

(** ** The hooks of a call *)
Definition loop_ids (h : hs) (slot this : Z) (post : bool) : list nat := map hk_nid (active (loop_hooks h slot this post)).
Definition todo_ids (h : hs) (a : ahook) (post : bool) (from : option (bool * nat)) : list nat := map hk_nid (active (map snd (todo h a post from))).
(** All hooks of the object and of its vtable are considered. *)
Definition whole (h : hs) (a : ahook) : Prop :=
  (a_alive a = true \/ forall adj post, adj = a_this a \/ adj = 0%Z -> installed h (a_slot a) adj post = []) /\
  (a_seen a = true \/ forall post, installed h (a_slot a) (a_this a) post = []).
Lemma todo_all : forall h a post, whole h a -> todo_ids h a post None = loop_ids h (a_slot a) (a_this a) post.
Proof.
  intros h a post [Ha Hs]. unfold todo_ids, loop_ids, loop_hooks, todo.
  assert (E : (if a_seen a then installed h (a_slot a) (a_this a) post else []) = installed h (a_slot a) (a_this a) post).
  { destruct (a_seen a); [reflexivity|]. destruct Hs as [Hs|H1]; [discriminate|]. now rewrite H1. }
  cbv zeta. rewrite E. destruct (a_alive a).
  - rewrite map_app, !map_map. cbn [snd]. rewrite !map_id. reflexivity.
  - destruct Ha as [Ha|Ha]; [discriminate|]. rewrite !Ha by auto. reflexivity.
Qed.

Section Exact.
Variables (slot this : Z) (h : hs) (t0 : list obs).
Hypothesis W : WH h.
Let L1 := loop_ids h slot this false.
Let L2 := loop_ids h slot this true.

Definition done (v : view) : Prop := vw_post v = true /\ rev (vw_pre v) = L1 /\ rev (vw_pst v) = L2.
Definition fits (v : view) (a : ahook) : Prop :=
  whole h a /\ a_slot a = slot /\ a_this a = this /\
  match a_phase a with
  | PPre => vw_post v = false /\ vw_pst v = [] /\ vw_norig v = 0 /\ rev (vw_pre v) ++ todo_ids h a false (a_run a) = L1
  | POrig => vw_post v = false /\ vw_pst v = [] /\ rev (vw_pre v) = L1
  | PPost => vw_post v = true /\ rev (vw_pre v) = L1 /\ rev (vw_pst v) ++ todo_ids h a true (a_run a) = L2
  end.
Definition fit_out (F : nat) (o : aout) : Prop :=
  match o with
  | AStop a w => fits (see (w_obs w ++ t0) F) a
  | AFin z w => done (see (w_obs w ++ t0) F)
  end.

Lemma todo_go : forall a post from z p r v, todo h (a_go z p r v a) post from = todo h a post from.
Proof. reflexivity. Qed.
Lemma post_fit : forall F d a from w, whole h a -> a_slot a = slot -> a_this a = this ->
  vw_post (see (w_obs w ++ t0) F) = true -> rev (vw_pre (see (w_obs w ++ t0) F)) = L1 ->
  rev (vw_pst (see (w_obs w ++ t0) F)) ++ todo_ids h a true from = L2 -> fit_out F (a_post h F d a from w).
Proof.
  intros F d a from w Wh E1 E2 P Hp Hq. unfold a_post. destruct (next h a true from) as [x|] eqn:Nx.
  - unfold a_start, fit_out. cbn [wemit w_obs app see]. rewrite Nat.eqb_refl. unfold fits. cbn [a_go a_slot a_this a_phase a_run].
    split; [exact Wh|]. split; [exact E1|]. split; [exact E2|]. unfold vw_call. rewrite P. cbn [vw_post vw_pre vw_pst].
    split; [reflexivity|]. split; [exact Hp|]. cbn [rev]. rewrite <- app_assoc. cbn [app].
    rewrite <- Hq. f_equal. unfold todo_ids. rewrite (next_active h W a true from x Nx). reflexivity.
  - unfold fit_out. cbn [wemit w_obs app see]. destruct (close_obs d w) as (l & El & Fl). rewrite El, <- app_assoc.
    rewrite see_silent; [|eapply Forall_impl; [|exact Fl]; intros o (q & y & ->); exact I].
    unfold todo_ids in Hq. rewrite (next_none h a true from Nx), app_nil_r in Hq. split; [exact P|]. split; [exact Hp|exact Hq].
Qed.
Lemma begin_post_fit : forall F d a w, whole h a -> a_slot a = slot -> a_this a = this ->
  vw_pst (see (w_obs w ++ t0) F) = [] -> rev (vw_pre (see (w_obs w ++ t0) F)) = L1 ->
  fit_out F (a_begin_post h F d a None w).
Proof.
  intros F d a w Wh E1 E2 Q Hp. unfold a_begin_post. apply post_fit; auto; cbn [wemit w_obs app see]; rewrite ?Nat.eqb_refl; auto.
  unfold vw_enter_post. cbn [vw_pst]. rewrite Q. cbn [rev app]. change (todo_ids h (a_with_v (vs_prev MIgnored (a_v a)) a) true None) with (todo_ids h a true None).
  rewrite (todo_all h a true Wh), E1, E2. reflexivity.
Qed.
Lemma pre_fit : forall F d a from w, whole h a -> a_slot a = slot -> a_this a = this ->
  vw_post (see (w_obs w ++ t0) F) = false -> vw_pst (see (w_obs w ++ t0) F) = [] -> vw_norig (see (w_obs w ++ t0) F) = 0 ->
  rev (vw_pre (see (w_obs w ++ t0) F)) ++ todo_ids h a false from = L1 -> fit_out F (a_pre h F d a from w).
Proof.
  intros F d a from w Wh E1 E2 P Q No Hq. unfold a_pre. destruct (next h a false from) as [x|] eqn:Nx.
  - unfold a_start, fit_out. cbn [wemit w_obs app see]. rewrite Nat.eqb_refl. unfold fits. cbn [a_go a_slot a_this a_phase a_run].
    split; [exact Wh|]. split; [exact E1|]. split; [exact E2|]. unfold vw_call. rewrite P. cbn [vw_post vw_pre vw_pst vw_norig].
    split; [reflexivity|]. split; [exact Q|]. split; [exact No|]. cbn [rev]. rewrite <- app_assoc. cbn [app].
    rewrite <- Hq. f_equal. unfold todo_ids. rewrite (next_active h W a false from x Nx). reflexivity.
  - unfold todo_ids in Hq. rewrite (next_none h a false from Nx), app_nil_r in Hq. destruct (_ && _); [|now apply begin_post_fit].
    unfold fit_out. cbn [wemit w_obs app see]. rewrite Nat.eqb_refl. split; [exact Wh|]. split; [exact E1|]. split; [exact E2|].
    cbn [a_at a_go a_phase vw_origcall vw_post vw_pst vw_pre]. auto.
Qed.
Lemma done_fit : forall F d a z w, fits (see (w_obs w ++ t0) F) a -> a_run a <> None -> (a_phase a = POrig -> a_run a = None) ->
  fit_out F (a_done h F d a z w).
Proof.
  intros F d a z w (Wh & E1 & E2 & P) R R0. unfold a_done. destruct (a_run a) as [[vp n]|] eqn:Er; [|congruence]. clear R.
  destruct (a_phase a).
  - destruct P as (P1 & P2 & P3 & P4). apply pre_fit; auto; cbn [wemit w_obs app see]; rewrite ?Nat.eqb_refl; unfold vw_result; rewrite P1; auto.
  - specialize (R0 eq_refl). discriminate.
  - destruct P as (P1 & P2 & P3). apply post_fit; auto; cbn [wemit w_obs app see]; rewrite ?Nat.eqb_refl; unfold vw_result; rewrite P1; auto.
Qed.
End Exact.

(** ** Along a run *)
(** The hooks that concern a call on this object are the same. *)
Definition same_hooks (h h' : hs) (slot this : Z) : Prop :=
  forall adj post, adj = this \/ adj = 0%Z -> installed h' slot adj post = installed h slot adj post.
Lemma same_ids : forall h h' slot this post, same_hooks h h' slot this -> loop_ids h' slot this post = loop_ids h slot this post.
Proof. intros h h' slot this post S. unfold loop_ids, loop_hooks. rewrite !S by auto. reflexivity. Qed.
Lemma fits_same : forall slot this h h' v a, same_hooks h h' slot this -> fits slot this h v a -> fits slot this h' v a.
Proof.
  intros slot this h h' v a S ((Wa & Ws) & E1 & E2 & P). unfold fits. rewrite !(same_ids h h') by exact S.
  assert (T : forall post from, todo_ids h' a post from = todo_ids h a post from).
  { intros post from. unfold todo_ids, todo. rewrite E1, E2, !S by auto. reflexivity. }
  rewrite !T. split; [|auto]. split.
  - destruct Wa as [Wa|Wa]; [now left|right]. rewrite E1, E2 in *. intros adj post D. rewrite S by exact D. now apply Wa.
  - destruct Ws as [Ws|Ws]; [now left|right]. rewrite E1, E2 in *. intros post. rewrite S by auto. apply Ws.
Qed.
Lemma no_installed : forall h slot adj post, hookedb h slot = false -> installed h slot adj post = [].
Proof.
  intros h slot adj post E. destruct (installed h slot adj post) as [|k l] eqn:Ei; [reflexivity|].
  rewrite (in_hooked h slot adj post k) in E; [discriminate|]. rewrite Ei. now left.
Qed.
Lemma not_present : forall h slot adj post, presentb h slot adj = false -> installed h slot adj post = [].
Proof.
  intros h slot adj post E. destruct (installed h slot adj post) as [|k l] eqn:Ei; [reflexivity|].
  rewrite (in_present h slot adj post k) in E; [discriminate|]. rewrite Ei. now left.
Qed.
Lemma fits_refresh : forall slot this h v a, fits slot this h v a -> fits slot this h v (a_refresh h a).
Proof.
  intros slot this h v a ((Wa & Ws) & E1 & E2 & P). unfold fits. cbn [a_refresh a_slot a_this a_phase a_run].
  assert (T : forall post from, todo_ids h (a_refresh h a) post from = todo_ids h a post from).
  { intros post from. unfold todo_ids, todo. cbn [a_refresh a_alive a_seen a_slot a_this].
    destruct (hookedb h (a_slot a)) eqn:Hk; rewrite ?andb_true_r, ?andb_false_r.
    - destruct (presentb h (a_slot a) (a_this a)) eqn:Pr; rewrite ?andb_true_r, ?andb_false_r; [reflexivity|].
      rewrite (not_present _ _ _ post Pr). now destruct (a_seen a).
    - rewrite !(no_installed _ _ _ _ Hk). destruct (a_alive a); [|reflexivity]. destruct (a_seen a), from as [[[|] n]|]; reflexivity. }
  rewrite !T. split; [|auto]. split; cbn [a_refresh a_alive a_seen a_slot a_this].
  - destruct Wa as [->|Wa]; [|now right]. destruct (hookedb h (a_slot a)) eqn:Hk; [now left|right]. intros adj post _. now apply no_installed.
  - destruct Ws as [->|Ws]; [|now right]. destruct (presentb h (a_slot a) (a_this a)) eqn:Hk; [now left|right]. intros post. now apply not_present.
Qed.

Definition on_course (slot this : Z) (s : state) (A : list aframe) (F : nat) : Prop :=
  F < h_nxt (s_h s) /\ (vw_rec (see (h_tr (s_h s)) F) = true \/
   (exists N f B a, A = N ++ f :: B /\ af_id f = F /\ af_hook f = Some a /\ fits slot this (s_h s) (see (h_tr (s_h s)) F) a) \/
   ~ In F (map af_id A) /\ done slot this (s_h s) (see (h_tr (s_h s)) F)).

Lemma fit_resume : forall slot this h t0 o F aft A s', NoDup (F :: map af_id A) -> h_tr (s_h s') = w_obs (as_w (a_resume h o F aft A)) ++ t0 ->
  fit_out slot this h t0 F o -> same_hooks h (s_h s') slot this -> F < h_nxt (s_h s') ->
  on_course slot this s' (as_fr (a_resume h o F aft A)) F.
Proof.
  intros slot this h t0 o F aft A s' ND Et Fo Sm Lt. split; [exact Lt|]. right. rewrite Et. destruct o as [a w|z w]; cbn [a_resume as_fr as_w fit_out] in *.
  - left. exists [], (AFrame F aft false (Some a)), A, a. do 3 (split; [reflexivity|]). eapply fits_same; eauto.
  - right. inversion ND as [|? ? NI _]; subst. split; [intros H; apply NI; eapply unwind_ids; eauto|].
    destruct (emits_unwind h A aft z w) as (l & El & Fl). rewrite El, <- app_assoc.
    rewrite (quiet_see (map af_id A)); [|intros o G Io Eo; rewrite Forall_forall in Fl; destruct (Fl o Io) as [_ H]; auto|exact NI].
    unfold done in *. rewrite !(same_ids h (s_h s')) by exact Sm. exact Fo.
Qed.

Lemma course_step : forall m0 s A e s' x slot this F, (forall a, Z.odd (m0 a) = false) -> LInv m0 s A -> allowed (s_h s) A e -> step s e = Ok s' ->
  astep (s_h s) (s_h s') A (b_pend (s_b s)) e = Some x -> same_hooks (s_h s) (s_h s') slot this ->
  on_course slot this s A F -> on_course slot this s' (as_fr x) F.
Proof.
  intros m0 s A e s' x slot this F Ev L Al E Ea Sm [Lt D].
  destruct (step_loop m0 s A e s' Ev L Al E) as (x' & new & Ea' & L' & Sn & Ep & Hn & Hnn & _).
  assert (x' = x) by congruence. subst x'. unfold since in Sn.
  pose proof (cinv_wh _ _ _ (li_c _ _ _ L)) as W.
  destruct (astep_obs _ _ _ _ _ _ Ea) as [O1 O2].
  assert (N2 : ~ In F (flat_map begins new)).
  { destruct (runs e) eqn:Hr.
    - rewrite (Hn eq_refl). destruct O2 as [->|[_ ->]]; [now intros []|]. intros [H|[]]. lia.
    - specialize (Hnn eq_refl). clear - Hnn. induction Hnn as [|o l H Hl IH]; [now intros []|]. cbn [flat_map]. destruct (api_silent o H) as (_ & _ & ->). exact IH. }
  assert (Lt' : F < h_nxt (s_h s')).
  { assert (h_nxt (s_h s) <= h_nxt (s_h s')); [|lia].
    pose proof (step_refines m0 s A e Ev (li_c _ _ _ L) Al) as Ag. unfold agrees in Ag. rewrite E in Ag. destruct Ag as (x2 & n2 & _ & _ & _ & _ & _ & Hx). destruct (opens e); lia. }
  destruct D as [R|[(N & f & B & a & -> & Ef & Eh & Ft)|[NI Dn]]].
  - split; [exact Lt'|]. left. rewrite Sn. apply rec_mono; auto.
  - destruct (vw_rec (see (h_tr (s_h s)) F)) eqn:R; [split; [exact Lt'|]; left; rewrite Sn; apply rec_mono; auto|].
    destruct (runs e) eqn:Hr.
    2:{ split; [exact Lt'|]. right. left.
      assert (Efr : as_fr x = map (refresh (s_h s')) (N ++ f :: B)) by (destruct e; try discriminate; cbn [astep] in Ea; injection Ea as <-; reflexivity).
      rewrite map_app in Efr. cbn [map] in Efr.
      exists (map (refresh (s_h s')) N), (refresh (s_h s') f), (map (refresh (s_h s')) B), (a_refresh (s_h s') a). split; [exact Efr|]. split; [exact Ef|]. split.
      - cbn [refresh af_hook]. now rewrite Eh.
      - apply fits_refresh. rewrite Sn, see_silent; [eapply fits_same; eauto|]. eapply Forall_impl; [|exact (Hnn eq_refl)]. intros o H. apply (api_silent o H). }
    rewrite (Hn eq_refl) in Sn.
    assert (Hf : is_hook f) by (unfold is_hook; congruence).
    assert (La : is_rec (lastaft APlain N) = false).
    { eapply stack_last; [apply (li_st _ _ _ L)|exact Eh|]. right. now rewrite Ef. }
    pose proof (ci_nd _ _ _ (li_c _ _ _ L)) as ND. rewrite <- (cinv_ids _ _ _ (li_c _ _ _ L)), map_app in ND. cbn [map] in ND.
    assert (NF : ~ In F (h_nxt (s_h s) :: map af_id N)).
    { intros [H|H]; [lia|]. rewrite <- Ef in H. apply (NoDup_remove_2 _ _ _ ND). apply in_or_app. now left. }
    assert (Kept : (exists N', as_fr x = N' ++ f :: B) /\ quiet (h_nxt (s_h s) :: map af_id N) (w_obs (as_w x)) -> on_course slot this s' (as_fr x) F).
    { intros [(N' & Efr) Q]. split; [exact Lt'|]. right. left. exists N', f, B, a. do 3 (split; [assumption|]).
      rewrite Sn, (quiet_see _ _ _ _ Q NF). eapply fits_same; eauto. }
    destruct N as [|g N]; [|apply Kept; eapply astep_quiet; eauto; left; discriminate].
    destruct (calls e) eqn:Hc; [apply Kept; eapply astep_quiet; eauto|].
    cbn [app map] in *. pose proof (li_st _ _ _ L) as St. cbn [stack_ok] in St. rewrite Eh in St. destruct St as [[[_ Po] _] _].
    destruct e as [th vo idx q|th vo idx q|z|m|res val offs vo idx q| | | | | | | | | |]; try discriminate; cbn [astep] in Ea.
    + rewrite Eh in Ea. rewrite Ef in *. destruct (a_run a) as [r|] eqn:Er; injection Ea as <-.
      * eapply fit_resume; eauto. apply done_fit; auto; [congruence|]. intros Hp. unfold phase_ok in Po. rewrite Hp in Po. destruct Po as [Po _]. congruence.
      * eapply fit_resume; eauto. unfold phase_ok in Po. unfold fits in Ft. destruct Ft as (Wh & E1 & E2 & P).
        destruct (a_phase a); try (destruct Po as [Po _]; congruence). destruct P as (P1 & P2 & P3).
        apply begin_post_fit; auto; cbn [wemit w_obs app see]; rewrite Nat.eqb_refl; assumption.
    + rewrite Eh in Ea. destruct (a_run a) as [r|] eqn:Er; [|discriminate]. injection Ea as <-. cbn [as_fr as_w w_obs app] in *.
      split; [exact Lt'|]. right. left. eexists [], _, B, _. cbn [app]. split; [reflexivity|]. split; [exact Ef|]. split; [reflexivity|]. rewrite Sn.
      apply (fits_same slot this (s_h s)); [exact Sm|]. exact Ft.
    + rewrite Eh in Ea. destruct (a_run a) as [[vp n]|] eqn:Er; [|discriminate]. injection Ea as <-. split; [exact Lt'|]. left. rewrite Sn.
      unfold a_recall. set (f1 := AFrame (af_id f) (af_after f) false _).
      match goal with |- vw_rec (see (w_obs (as_w (a_resume ?h0 ?o ?F0 ?aft ?A0)) ++ _) _) = _ => assert (Em : emits (F0 :: map af_id A0) (wemit (OBegin F0 (a_slot a) (a_this a) q (KRecall (af_id f))) (wemit (ORecall (af_id f) n res val) (World (b_pend (s_b s)) []))) (as_w (a_resume h0 o F0 aft A0))) end.
      { apply emits_resume. destruct (a_phase a); [apply emits_pre|apply emits_pre|apply emits_begin_post]. }
      destruct Em as (l & -> & Fl). rewrite <- app_assoc. apply rec_mono.
      * clear - Fl. induction Fl as [|o l [H _] Hl IH]; [now intros []|]. cbn [flat_map]. rewrite H. exact IH.
      * cbn [wemit w_obs app see]. rewrite Ef, Nat.eqb_refl. rewrite (proj2 (Nat.eqb_neq _ _)) by lia. reflexivity.
  - split; [exact Lt'|]. right. right. split.
    + intros H. apply (astep_ids _ _ _ _ _ _ Ea) in H. destruct H as [H|H]; [lia|contradiction].
    + assert (Es : see (h_tr (s_h s')) F = see (h_tr (s_h s)) F).
      { rewrite Sn. destruct (runs e) eqn:Hr.
        - rewrite (Hn eq_refl). apply (quiet_see (h_nxt (s_h s) :: map af_id A)); [|intros [H|H]; [lia|contradiction]].
          intros o G Io Eo. destruct (O1 o G Io Eo) as [H|[_ ->]]; [now right|now left].
        - apply see_silent. eapply Forall_impl; [|exact (Hnn eq_refl)]. intros o H. apply (api_silent o H). }
      rewrite Es. unfold done in *. rewrite !(same_ids (s_h s) (s_h s')) by exact Sm. exact Dn.
Qed.

(** ** How a call begins *)
Lemma emits_no_begin : forall L w w' F s a p k, emits L w w' -> In (OBegin F s a p k) (w_obs w') -> In (OBegin F s a p k) (w_obs w).
Proof.
  intros L w w' F s a p k (l & E & Fl) I'. rewrite E in I'. apply in_app_or in I'. destruct I' as [I'|I']; [|exact I'].
  rewrite Forall_forall in Fl. destruct (Fl _ I') as [H _]. discriminate.
Qed.
Definition begin_by (h : hs) (A : list aframe) (e : event) (F : nat) (slot this p : Z) (k : kind) : Prop :=
  F = h_nxt h /\
  match k with
  | KNormal => exists vo idx, e = ECall this vo idx p /\ slot = slot_of h this vo idx /\ is_hookcode (h_mem h slot) = true /\ take_ign A = None
  | KIgnored => exists vo idx, slot = slot_of h this vo idx /\ is_hookcode (h_mem h slot) = true /\
      (e = ESHCall this vo idx p \/ e = ECall this vo idx p /\ take_ign A <> None)
  | KRecall G => exists res val offs vo idx f a B, e = ERecall res val offs vo idx p /\ A = f :: B /\ af_id f = G /\ af_hook f = Some a /\
      a_slot a = slot /\ a_this a = this
  end.
Lemma astep_begin : forall h h' A p0 e x F slot this p k, astep h h' A p0 e = Some x ->
  In (OBegin F slot this p k) (w_obs (as_w x)) -> begin_by h A e F slot this p k.
Proof.
  intros h h' A p0 e x F slot this p k E I'.
  destruct e as [th vo idx q|th vo idx q|z|m|res val offs vo idx q| | | | | | | | | |]; cbn [astep] in E; try (injection E as <-; contradiction).
  - injection E as <-. destruct (is_hookcode _) eqn:Hc; [|destruct I' as [I'|[]]; discriminate].
    destruct (take_ign A) as [A1|] eqn:Et.
    + eapply emits_no_begin in I'; [|apply emits_resume, emits_pre]. destruct I' as [I'|[]]. injection I' as <- <- <- <- <-.
      split; [reflexivity|]. exists vo, idx. rewrite Hc. repeat split. right. split; [reflexivity|congruence].
    + eapply emits_no_begin in I'; [|apply emits_resume, emits_pre]. destruct I' as [I'|[]]. injection I' as <- <- <- <- <-.
      split; [reflexivity|]. exists vo, idx. auto.
  - injection E as <-. destruct (is_hookcode _) eqn:Hc; [|destruct I' as [I'|[]]; discriminate].
    eapply emits_no_begin in I'; [|apply emits_resume, emits_pre]. destruct I' as [I'|[]]. injection I' as <- <- <- <- <-.
    split; [reflexivity|]. exists vo, idx. auto.
  - exfalso. destruct A as [|f A]; [discriminate|]. destruct (af_hook f) as [a|].
    + destruct (a_run a); injection E as <-; eapply emits_no_begin in I'.
      2: apply emits_resume, emits_done. 3: apply emits_resume, emits_begin_post. contradiction. destruct I' as [I'|[]]. discriminate.
    + injection E as <-. destruct (af_ign f).
      * destruct (af_after f); cbn [as_w] in I'; try (destruct I' as [I'|[]]; discriminate).
        eapply (emits_no_begin []) in I'; [|apply emits_close]. destruct I' as [I'|[]]; discriminate.
      * eapply emits_no_begin in I'; [|apply emits_unwind]. destruct I' as [I'|[]]; discriminate.
  - destruct A as [|f A]; [discriminate|]. destruct (af_hook f) as [a|]; [|discriminate]. destruct (a_run a); [|discriminate]. injection E as <-. contradiction.
  - destruct A as [|f A]; [discriminate|]. destruct (af_hook f) as [a|] eqn:Eh; [|discriminate]. destruct (a_run a) as [[vp n]|]; [|discriminate].
    injection E as <-. unfold a_recall in I'. eapply emits_no_begin in I'.
    2:{ apply emits_resume. instantiate (1 := wemit (OBegin (h_nxt h) (a_slot a) (a_this a) q (KRecall (af_id f))) (wemit (ORecall (af_id f) n res val) (World p0 []))).
        destruct (a_phase a); [apply emits_pre|apply emits_pre|apply emits_begin_post]. }
    destruct I' as [I'|[I'|[]]]; [|discriminate]. injection I' as <- <- <- <- <-. split; [reflexivity|].
    exists res, val, offs, vo, idx, f, a, A. repeat split; auto.
Qed.

Lemma fresh_course : forall m0 s A e s' x F slot this p, (forall a, Z.odd (m0 a) = false) -> LInv m0 s A -> allowed (s_h s) A e -> step s e = Ok s' ->
  astep (s_h s) (s_h s') A (b_pend (s_b s)) e = Some x -> In (OBegin F slot this p KNormal) (w_obs (as_w x)) ->
  on_course slot this s' (as_fr x) F.
Proof.
  intros m0 s A e s' x F slot this p Ev L Al E Ea I'.
  destruct (step_loop m0 s A e s' Ev L Al E) as (x' & new & Ea' & L' & Sn & Ep & Hn & Hnn & _).
  assert (x' = x) by congruence. subst x'. unfold since in Sn.
  destruct (astep_begin _ _ _ _ _ _ _ _ _ _ _ Ea I') as [-> (vo & idx & -> & Es & Hc & Ti)]. rewrite (Hn eq_refl) in Sn.
  cbn [astep] in Ea. rewrite <- Es, Hc, Ti in Ea. injection Ea as <-.
  assert (Ev' : h_vfns (s_h s') = h_vfns (s_h s)) by (apply (rs_vfns _ _ (step_runs s (ECall this vo idx p) s' eq_refl E))).
  pose proof (cinv_wh _ _ _ (li_c _ _ _ L)) as W.
  eapply fit_resume; [|exact Sn| | |].
  - constructor; [|rewrite (cinv_ids _ _ _ (li_c _ _ _ L)); apply (ci_nd _ _ _ (li_c _ _ _ L))].
    rewrite (cinv_ids _ _ _ (li_c _ _ _ L)). intros H. apply (ci_fresh _ _ _ (li_c _ _ _ L)) in H. lia.
  - rewrite Es. apply pre_fit; auto; cbn [wemit w_obs app see]; rewrite ?Nat.eqb_refl; auto.
    + split; [now left|]. cbn [a_seen a_slot a_this].
      destruct (presentb _ _ _) eqn:Pr; [now left|right]. intros post. now apply not_present.
    + cbn [vw_begin vw_pre rev app]. apply (todo_all (s_h s)). split; [now left|]. cbn [a_seen a_slot a_this].
      destruct (presentb _ _ _) eqn:Pr; [now left|right]. intros post. now apply not_present.
  - intros adj post _. unfold installed. now rewrite Ev'.
  - pose proof (step_refines m0 s A _ Ev (li_c _ _ _ L) Al) as Ag. unfold agrees in Ag. rewrite E in Ag. destruct Ag as (x2 & n2 & _ & _ & _ & _ & _ & Hx). cbn [opens] in Hx. lia.
Qed.

Lemma course_run : forall m0 slot this F h0 s A l s' A', (forall a, Z.odd (m0 a) = false) ->
  during (fun q => same_hooks h0 (s_h q) slot this) s A l s' A' -> LInv m0 s A -> on_course slot this s A F ->
  LInv m0 s' A' /\ on_course slot this s' A' F.
Proof.
  intros m0 slot this F h0 s A l s' A' Ev D. induction D as [|s A e s1 x l s' A' P Al E Ea D IH]; intros L C; [auto|].
  destruct (step_loop m0 s A e s1 Ev L Al E) as (x' & new & Ea' & L' & _). assert (x' = x) by congruence. subst x'.
  apply IH; [exact L'|]. apply (course_step m0 s A e s1 x slot this F Ev L Al E Ea); [|exact C]. intros adj post Hd. rewrite P by exact Hd. apply (during_start _ _ _ _ _ _ D). exact Hd.
Qed.
