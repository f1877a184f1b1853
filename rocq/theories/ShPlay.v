(** Histories that keep to the rules of ShRefine.v, and a checker for concrete ones. *)
From Coq Require Import List Bool Arith ZArith Lia.
From Verif Require Import ProtoModel ProtoSpec ProtoProofs ShModel ShRun ShLists ShInv ShMan ShHooks ShAdd ShRem ShApi ShUnload ShHist ShGood ShSpec ShView ShAbs ShFrames ShRel ShCalls ShMoves ShChange ShMgr ShOrder ShOwned ShFollow ShRefine ShTrace ShLoop ShAhead ShExact ShSkip ShRules ShReady.
Import ListNotations.
Local Open Scope nat_scope.

(** The history [l] keeps to the rules and leads to [s]; [mem]: the vtable
    contents before SourceHook touched them; [A]: the activations. *)
Definition play (mem : Z -> Z) (l : list event) (s : state) (A : list aframe) : Prop :=
  (forall a, Z.odd (mem a) = false) /\
  exists pfs vt, (forall f i, pfs f = Some i -> proto_wf (pf_proto i)) /\ tracks (init pfs mem vt) [] l s A.

Lemma SInv_start : forall pfs mem vt, SInv (init pfs mem vt) [].
Proof. intros. constructor; intros; contradiction. Qed.
Lemma play_inv : forall mem l s A, play mem l s A -> LInv mem s A /\ SInv s A.
Proof.
  intros mem l s A (Ev & pfs & vt & P & T). assert (L0 : LInv mem (init pfs mem vt) []) by (apply LInv_init; exact P).
  split; [eapply tracks_loop; eauto|eapply SInv_run; eauto]. apply SInv_start.
Qed.
Lemma play_more : forall mem l s A l' s' A', play mem l s A -> tracks s A l' s' A' -> play mem (l ++ l') s' A'.
Proof. intros mem l s A l' s' A' (Ev & pfs & vt & P & T) T'. split; [exact Ev|]. exists pfs, vt. split; [exact P|]. eapply tracks_app; eauto. Qed.
Lemma play_rules : forall mem l s A t2 o t1, play mem l s A -> h_tr (s_h s) = t2 ++ o :: t1 ->
  exists l1 e l2 q B, l = l1 ++ e :: l2 /\ play mem l1 q B /\ obs_ok mem (s_h q) t1 o.
Proof.
  intros mem l s A t2 o t1 (Ev & pfs & vt & P & T) E. assert (L0 : LInv mem (init pfs mem vt) []) by (apply LInv_init; exact P).
  destruct (obs_rules mem _ _ _ _ _ Ev L0 T) as (new & N1 & N2). change (h_tr (s_h (init pfs mem vt))) with (@nil obs) in *. rewrite app_nil_r in N1.
  destruct (N2 t2 o t1) as (l1 & e & l2 & q & B & -> & T1 & O1); [congruence|]. rewrite app_nil_r in O1.
  exists l1, e, l2, q, B. split; [reflexivity|]. split; [|exact O1]. split; [exact Ev|]. exists pfs, vt. auto.
Qed.
Lemma play_ok : forall mem l s A, play mem l s A -> all_ok mem (h_tr (s_h s)).
Proof. intros mem l s A P t2 o t1 E. destruct (play_rules _ _ _ _ _ _ _ P E) as (l1 & e & l2 & q & B & _ & _ & O). eauto. Qed.

(** ** The checker *)
Definition knowsb (h : hs) (this vo idx : Z) : bool :=
  match h_mem h (slot_of h this vo idx) with
  | CHook pf => match h_pfs h pf with Some i => Z.eqb (slot_of h this (pf_voffs i) (pf_vidx i)) (slot_of h this vo idx) | None => true end
  | COrig _ => true
  end.
Lemma knowsb_ok : forall h this vo idx, knowsb h this vo idx = true -> knows h this vo idx.
Proof. intros h this vo idx H pf i E1 E2. unfold knowsb in H. rewrite E1, E2 in H. now apply Z.eqb_eq. Qed.
Definition no_refillb (h : hs) (slot adj : Z) (a : ahook) : bool :=
  match a_run a with
  | Some (vp, n) => negb (Z.eqb (a_slot a) slot) || negb (Z.eqb (if vp then 0%Z else a_this a) adj) || presentb h slot adj
  | None => true
  end.
Lemma no_refillb_ok : forall h slot adj a, no_refillb h slot adj a = true -> no_refill h slot adj a.
Proof.
  intros h slot adj a H vp n Er Es Ea. unfold no_refillb in H. rewrite Er in H. apply orb_prop in H. destruct H as [H|H]; [|exact H].
  apply orb_prop in H. destruct H as [H|H]; apply negb_true_iff, Z.eqb_neq in H; congruence.
Qed.
Definition add_okb (h : hs) (A : list aframe) (plug : Z) (mode : addmode) (ifp offs pf : Z) : bool :=
  (match mode with ADVP => true | _ => negb (Z.eqb (ifp + offs) 0) end) &&
  forallb (fun m => negb (Z.eqb (mn_pf m) pf) || Z.eqb (mn_plug m) plug) (h_mans h) &&
  match pf_valid h pf with
  | Some info => forallb (fun f => match af_hook f with
                                   | Some a => negb (a_alive a) || no_refillb h (fst (hook_target h mode ifp offs info)) (snd (hook_target h mode ifp offs info)) a
                                   | None => true
                                   end) A
  | None => true
  end.
Lemma add_okb_ok : forall h A plug mode ifp offs pf, add_okb h A plug mode ifp offs pf = true -> add_ok h A plug mode ifp offs pf.
Proof.
  intros h A plug mode ifp offs pf H. unfold add_okb in H. apply andb_prop in H. destruct H as [H H3]. apply andb_prop in H. destruct H as [H1 H2]. split; [|split].
  - destruct mode; auto; right; apply negb_true_iff, Z.eqb_neq in H1; exact H1.
  - intros m Hm Ep. rewrite forallb_forall in H2. specialize (H2 m Hm). rewrite Ep, Z.eqb_refl in H2. apply Z.eqb_eq. exact H2.
  - intros info f a V Hf Eh Ea. rewrite V in H3. rewrite forallb_forall in H3. specialize (H3 f Hf). rewrite Eh, Ea in H3. apply no_refillb_ok. exact H3.
Qed.
(** (refuses ERemoveMan and EReconfigure altogether) *)
Definition allowedb (h : hs) (A : list aframe) (e : event) : bool :=
  match e with
  | ECall this vo idx _ | ESHCall this vo idx _ => negb (Z.eqb this 0) && knowsb h this vo idx
  | ERecall _ _ offs vo idx _ =>
      match A with
      | f :: _ => match af_hook f with
                  | Some a => a_alive a && Z.eqb (a_ifp a + offs) (a_this a) && Z.eqb (slot_of h (a_this a) vo idx) (a_slot a) && knowsb h (a_this a) vo idx
                  | None => true
                  end
      | [] => true
      end
  | EAddHook plug mode ifp offs pf _ _ => add_okb h A plug mode ifp offs pf
  | ERemoveMan _ _ | EReconfigure _ _ _ _ => false
  | _ => true
  end.
Lemma allowedb_ok : forall h A e, allowedb h A e = true -> allowed h A e.
Proof.
  intros h A e H. destruct e; cbn [allowedb allowed api_ok] in *; auto; try discriminate.
  - apply andb_prop in H. destruct H as [H1 H2]. split; [now apply Z.eqb_neq, negb_true_iff|now apply knowsb_ok].
  - apply andb_prop in H. destruct H as [H1 H2]. split; [now apply Z.eqb_neq, negb_true_iff|now apply knowsb_ok].
  - destruct A as [|f A]; [exact I|]. destruct (af_hook f) as [a|]; [|exact I]. apply andb_prop in H. destruct H as [H H4]. apply andb_prop in H. destruct H as [H H3].
    apply andb_prop in H. destruct H as [H1 H2]. split; [exact H1|]. split; [now apply Z.eqb_eq|]. split; [now apply Z.eqb_eq|now apply knowsb_ok].
  - now apply add_okb_ok.
Qed.
Fixpoint trackb (s : state) (A : list aframe) (l : list event) : option (state * list aframe) :=
  match l with
  | [] => Some (s, A)
  | e :: l' =>
      if allowedb (s_h s) A e then
        match step s e with
        | Ok s1 => match astep (s_h s) (s_h s1) A (b_pend (s_b s)) e with Some x => trackb s1 (as_fr x) l' | None => None end
        | _ => None
        end
      else None
  end.
Lemma trackb_ok : forall l s A s' A', trackb s A l = Some (s', A') -> tracks s A l s' A'.
Proof.
  induction l as [|e l IH]; intros s A s' A' H; cbn [trackb] in H; [injection H as <- <-; constructor|].
  destruct (allowedb (s_h s) A e) eqn:Ea; [|discriminate]. destruct (step s e) as [s1| |] eqn:Es; try discriminate.
  destruct (astep _ _ _ _ e) as [x|] eqn:Ex; [|discriminate]. econstructor; eauto. now apply allowedb_ok.
Qed.
(** ... all the states on the way satisfy [P] *)
Fixpoint duringb (P : state -> bool) (s : state) (A : list aframe) (l : list event) : bool :=
  P s && match l with
         | [] => true
         | e :: l' =>
             match step s e with
             | Ok s1 => match astep (s_h s) (s_h s1) A (b_pend (s_b s)) e with Some x => duringb P s1 (as_fr x) l' | None => false end
             | _ => false
             end
         end.
Lemma duringb_ok : forall (P : state -> Prop) Pb, (forall s, Pb s = true -> P s) -> forall s A l s' A', tracks s A l s' A' -> duringb Pb s A l = true -> during P s A l s' A'.
Proof.
  intros P Pb HP s A l s' A' T. induction T as [s A|s A e s1 x l s' A' Al E Ea T IH]; intros H; cbn [duringb] in H; apply andb_prop in H; destruct H as [H1 H2].
  - constructor. auto.
  - rewrite E, Ea in H2. econstructor; eauto.
Qed.

(** ** A call is on the stack until it has returned *)
Definition over (t : list obs) (F : nat) : Prop := exists z, In (OEnd F z) t.
Definition ended (F : nat) (w : world) : Prop := over (w_obs w) F.
Lemma ended_mild : forall F o w, is_end o = false -> ended F (wemit o w) <-> ended F w.
Proof. intros F o w H. unfold ended, over. cbn [wemit w_obs In]. split; intros (z & I). - destruct I as [->|I]; [discriminate|eauto]. - eauto. Qed.
Lemma ended_ends : forall F w w', ends w' = ends w -> ended F w' <-> ended F w.
Proof. intros F w w' E. unfold ended, over. split; intros (z & I); exists z; apply in_ends; apply in_ends in I; congruence. Qed.
Lemma ended_fin : forall F G w w' z, ends w' = OEnd F z :: ends w -> ended G w' <-> (ended G w \/ G = F).
Proof.
  intros F G w w' z E. unfold ended, over. split.
  - intros (y & I). apply in_ends in I. rewrite E in I. destruct I as [I|I]; [right; congruence|left; exists y; now apply in_ends].
  - intros [(y & I)| ->].
    + exists y. apply in_ends. rewrite E. right. now apply in_ends.
    + exists z. apply in_ends. rewrite E. now left.
Qed.
Definition end_of (o : obs) : list nat := match o with OEnd f _ => [f] | _ => [] end.
Lemma over_in : forall t F, over t F <-> In F (flat_map end_of t).
Proof.
  intros t F. unfold over. rewrite in_flat_map. split.
  - intros (z & I). eexists. split; [exact I|]. now left.
  - intros (o & I1 & I2). destruct o; try contradiction. destruct I2 as [->|[]]. eauto.
Qed.
Lemma end_filter : forall l, flat_map end_of (filter is_end l) = flat_map end_of l.
Proof. induction l as [|o l IH]; [reflexivity|]. cbn [filter]. destruct o; cbn [is_end flat_map end_of app]; rewrite ?IH; reflexivity. Qed.
Lemma end_same : forall w w', ends w' = ends w -> flat_map end_of (w_obs w') = flat_map end_of (w_obs w).
Proof. intros w w' E. rewrite <- (end_filter (w_obs w')), <- (end_filter (w_obs w)). unfold ends in E. now rewrite E. Qed.
Lemma end_more : forall F z w w', ends w' = OEnd F z :: ends w -> flat_map end_of (w_obs w') = F :: flat_map end_of (w_obs w).
Proof. intros F z w w' E. rewrite <- (end_filter (w_obs w')), <- (end_filter (w_obs w)). unfold ends in E. now rewrite E. Qed.
Definition popped (A : list aframe) (w : world) (x : astate) : Prop :=
  exists P S, A = P ++ S /\ map af_id (as_fr x) = map af_id S /\ flat_map end_of (w_obs (as_w x)) = rev (map af_id P) ++ flat_map end_of (w_obs w).
Lemma take_ids : forall A B, take_ign A = Some B -> map af_id B = map af_id A.
Proof.
  induction A as [|f A IH]; intros B H; cbn [take_ign] in H; [discriminate|]. destruct (af_hook f); [discriminate|].
  destruct (af_ign f); [injection H as <-; reflexivity|]. destruct (take_ign A) as [r|]; [|discriminate]. injection H as <-. cbn [map]. now rewrite IH.
Qed.
Lemma unwind_pops : forall h A aft z w, popped A w (a_unwind h aft z A w).
Proof.
  intros h A. induction A as [|f A IH]; intros aft z w; destruct aft; cbn [a_unwind]; try solve [exists [], []; cbn; intuition].
  - exists [], (f :: A). cbn. intuition.
  - unfold a_reset. destruct (take_ign (f :: A)) as [r|] eqn:E; [|exists [], (f :: A); cbn; intuition].
    exists [], (f :: A). cbn [as_fr as_w app]. split; [reflexivity|]. split; [now apply take_ids|]. cbn [map rev app]. apply end_same, close_ends.
  - destruct (af_hook f) as [a|]; [|exists [], (f :: A); cbn; intuition].
    pose proof (done_ends h (af_id f) (depth A) (a_with_v (vs_cur MSupercede (a_v a)) a) z w) as D.
    destruct (a_done _ _ _ _ _ _) as [a' w'|z' w']; cbn [out_ends] in D.
    + exists [], (f :: A). cbn [as_fr as_w app map af_id rev]. split; [reflexivity|]. split; [reflexivity|]. now apply end_same.
    + destruct (IH (af_after f) z' w') as (P & S & -> & Es & En). exists (f :: P), S. split; [reflexivity|]. split; [exact Es|].
      rewrite En, (end_more _ _ _ _ D). cbn [map rev]. now rewrite <- app_assoc.
Qed.
Lemma resume_pops : forall h o F aft A w, out_ends F w o -> popped (AFrame F aft false None :: A) w (a_resume h o F aft A).
Proof.
  intros h o F aft A w D. destruct o as [a w'|z w']; cbn [a_resume out_ends] in *.
  - exists [], (AFrame F aft false None :: A). cbn [as_fr as_w app map af_id rev]. split; [reflexivity|]. split; [reflexivity|]. now apply end_same.
  - destruct (unwind_pops h A aft z w') as (P & S & -> & Es & En). exists (AFrame F aft false None :: P), S. split; [reflexivity|]. split; [exact Es|].
    rewrite En, (end_more _ _ _ _ D). cbn [map rev af_id]. now rewrite <- app_assoc.
Qed.
Definition pops (h : hs) (A : list aframe) (e : event) (x : astate) : Prop :=
  exists L P S, L = P ++ S /\ map af_id (as_fr x) = S /\ flat_map end_of (w_obs (as_w x)) = rev P /\
    (opens e = false /\ L = map af_id A \/ L = h_nxt h :: map af_id A \/ opens e = false /\ exists f B, A = f :: B /\ L = map af_id B /\ af_hook f = None).
Lemma astep_pops : forall h h' A p e x, astep h h' A p e = Some x -> pops h A e x.
Proof.
  intros h h' A p e x E.
  assert (Clean : forall B w, popped B w x -> flat_map end_of (w_obs w) = [] -> forall L, map af_id B = L ->
     (opens e = false /\ L = map af_id A \/ L = h_nxt h :: map af_id A \/ opens e = false /\ exists f B, A = f :: B /\ L = map af_id B /\ af_hook f = None) -> pops h A e x).
  { intros B w (P & S & -> & E2 & E3) N L <- D. exists (map af_id (P ++ S)), (map af_id P), (map af_id S). split; [apply map_app|]. split; [exact E2|].
    split; [|exact D]. now rewrite E3, N, app_nil_r. }
  destruct e; cbn [astep] in E; try solve [injection E as <-; exists (map af_id A), [], (map af_id A); cbn [as_fr as_w];
    (split; [reflexivity|split; [rewrite map_map; reflexivity|split; [reflexivity|left; now split]]])].
  - injection E as <-. destruct (is_hookcode _).
    + destruct (take_ign A) as [A1|] eqn:Et.
      * unfold a_ignored in *. eapply Clean; [apply resume_pops, pre_ends|reflexivity|reflexivity|]. right. left. cbn [map af_id]. f_equal. now apply take_ids.
      * unfold a_hooked in *. eapply Clean; [apply resume_pops, pre_ends|reflexivity|reflexivity|]. right. left. reflexivity.
    + unfold a_native. exists (h_nxt h :: map af_id A), [], (h_nxt h :: map af_id A). cbn [as_fr as_w map af_id]. repeat split; auto.
  - injection E as <-. destruct (is_hookcode _).
    + unfold a_ignored in *. eapply Clean; [apply resume_pops, pre_ends|reflexivity|reflexivity|]. right. left. reflexivity.
    + unfold a_native. exists (h_nxt h :: map af_id A), [], (h_nxt h :: map af_id A). cbn [as_fr as_w map af_id]. repeat split; auto.
  - destruct A as [|f A]; [discriminate|]. destruct (af_hook f) as [a|] eqn:Eh.
    + destruct (a_run a); injection E as <-.
      * eapply Clean; [apply resume_pops, done_ends|reflexivity|reflexivity|]. left. now split.
      * eapply Clean; [apply resume_pops, begin_post_ends|reflexivity|reflexivity|]. left. now split.
    + assert (D : opens (EReturn v) = false /\ map af_id A = map af_id (f :: A) \/ map af_id A = h_nxt h :: map af_id (f :: A) \/ opens (EReturn v) = false /\ exists f0 B, f :: A = f0 :: B /\ map af_id A = map af_id B /\ af_hook f0 = None) by (right; right; split; eauto).
      injection E as <-. destruct (af_ign f).
      * destruct (af_after f).
        -- exists (map af_id (f :: A)), [], (map af_id (f :: A)). cbn [as_fr as_w]. split; [reflexivity|]. split; [reflexivity|]. split; [reflexivity|left; now split].
        -- exists (map af_id A), [], (map af_id A). cbn [as_fr as_w]. split; [reflexivity|]. split; [reflexivity|]. split; [|exact D].
           apply (end_same (wemit (ONativeRet (af_id f) v) (World p []))), close_ends.
        -- exists (map af_id (f :: A)), [], (map af_id (f :: A)). cbn [as_fr as_w]. split; [reflexivity|]. split; [reflexivity|]. split; [reflexivity|left; now split].
      * eapply Clean; [apply unwind_pops|reflexivity|reflexivity|]. exact D.
  - destruct A as [|f A]; [discriminate|]. destruct (af_hook f) as [a|]; [|discriminate]. destruct (a_run a); [|discriminate]. injection E as <-.
    exists (map af_id (f :: A)), [], (map af_id (f :: A)). cbn [as_fr as_w]. split; [reflexivity|]. split; [reflexivity|]. split; [reflexivity|left; now split].
  - destruct A as [|f A]; [discriminate|]. destruct (af_hook f) as [a|]; [|discriminate]. destruct (a_run a) as [[vp nid]|]; [|discriminate]. injection E as <-.
    unfold a_recall in *. cbn zeta in *.
    match goal with |- pops _ _ _ (a_resume ?h ?o ?F ?aft ?B) => set (oo := o) in *; set (BB := B) in * end.
    assert (D : out_ends (h_nxt h) (wemit (OBegin (h_nxt h) (a_slot a) (a_this a) param (KRecall (af_id f))) (wemit (ORecall (af_id f) nid res val) (World p []))) oo).
    { unfold oo. destruct (a_phase a); [apply pre_ends|apply pre_ends|apply begin_post_ends]. }
    eapply Clean; [apply resume_pops; exact D|reflexivity|reflexivity|right; left; reflexivity].
Qed.

Record EInv (s : state) (A : list aframe) : Prop := {
  ei_over : forall F, over (h_tr (s_h s)) F -> ~ In F (map af_id A);
  ei_end : forall F, In F (flat_map begins (h_tr (s_h s))) -> ~ In F (map af_id A) -> over (h_tr (s_h s)) F;
  ei_once : NoDup (flat_map end_of (h_tr (s_h s))) }.
Lemma EInv_start : forall pfs mem vt, EInv (init pfs mem vt) [].
Proof. intros. constructor; [intros F (z & [])|intros F []|constructor]. Qed.
Lemma over_app : forall l t F, over (l ++ t) F <-> over l F \/ over t F.
Proof.
  intros l t F. unfold over. split; [intros (z & I); apply in_app_iff in I; destruct I; eauto|].
  intros [(z & I)|(z & I)]; exists z; apply in_app_iff; auto.
Qed.
Lemma EInv_step : forall m0 s A e s' x, (forall a, Z.odd (m0 a) = false) -> LInv m0 s A -> SInv s A -> allowed (s_h s) A e -> step s e = Ok s' ->
  astep (s_h s) (s_h s') A (b_pend (s_b s)) e = Some x -> EInv s A -> EInv s' (as_fr x).
Proof.
  intros m0 s A e s' x Ev L S Al E Ea [E1 E2 E3].
  destruct (step_loop m0 s A e s' Ev L Al E) as (x' & new & Ea' & L' & Sn & Ep & Hn & Hnn & _).
  assert (x' = x) by congruence. subst x'. unfold since in Sn.
  pose proof (cinv_ids _ _ _ (li_c _ _ _ L)) as Ei.
  assert (Nd : NoDup (map af_id A)) by (rewrite Ei; apply (ci_nd _ _ _ (li_c _ _ _ L))).
  assert (Lt : forall g, In g (map af_id A) -> g < h_nxt (s_h s)) by (rewrite Ei; apply (ci_fresh _ _ _ (li_c _ _ _ L))).
  destruct (astep_pops _ _ _ _ _ _ Ea) as (M & P & Q & EM & EQ & En0 & Cs).
  assert (En : forall G, over (w_obs (as_w x)) G <-> In G P) by (intros G; rewrite over_in, En0; symmetry; apply in_rev).
  assert (NdM : NoDup M /\ (forall g, In g M -> In g (map af_id A) \/ g = h_nxt (s_h s))).
  { destruct Cs as [[_ ->]|[->|(_ & f & B & -> & -> & _)]].
    - auto.
    - split; [constructor; [intros I; apply Lt in I; lia|exact Nd]|]. intros g [<-|I]; auto.
    - cbn [map] in *. apply NoDup_cons_iff in Nd. split; [apply Nd|]. intros g I. left. now right. }
  destruct NdM as [NdM Sub].
  constructor.
  - intros F O. rewrite EQ. rewrite Sn, over_app in O. destruct O as [O|O].
    + destruct (runs e) eqn:Er.
      * rewrite (Hn eq_refl) in O. apply En in O. rewrite EM in NdM. intros I. revert NdM O I. clear. induction P as [|y P IH]; cbn [app]; intros N O I; [contradiction|]. apply NoDup_cons_iff in N. destruct N as [N1 N2]. destruct O as [->|O]; [apply N1, in_app_iff; auto|auto].
      * exfalso. destruct O as (z & I). specialize (Hnn eq_refl). rewrite Forall_forall in Hnn. now apply Hnn in I.
    + assert (N1 := E1 F O). assert (N2 : F < h_nxt (s_h s)) by (destruct O as (z & I); now apply (li_fid _ _ _ L _ F) in I). intros I. destruct (Sub F) as [I2| ->]; [rewrite EM; apply in_app_iff; auto|contradiction|lia].
  - intros F O NI. rewrite EQ in NI. rewrite Sn, over_app. rewrite Sn, flat_map_app in O. apply in_app_iff in O. destruct O as [O|O].
    + destruct (runs e) eqn:Er.
      * left. rewrite (Hn eq_refl) in *. apply in_flat_map in O. destruct O as (o & O1 & O2). destruct o; try contradiction. destruct O2 as [->|[]].
        pose proof (astep_begin _ _ _ _ _ _ _ _ _ _ _ Ea O1) as [Bf B].
        assert (Op : opens e = true) by (destruct k; [destruct B as (? & ? & -> & _)|destruct B as (? & ? & _ & _ & [->|[-> _]])|destruct B as (? & ? & ? & ? & ? & ? & ? & ? & -> & _)]; reflexivity).
        apply En. destruct Cs as [[C _]|[->|[C _]]]; [congruence| |congruence].
        assert (I : In F (P ++ Q)) by (rewrite <- EM; now left). apply in_app_iff in I. destruct I; [auto|contradiction].
      * exfalso. apply in_flat_map in O. destruct O as (o & O1 & O2). specialize (Hnn eq_refl). rewrite Forall_forall in Hnn. apply Hnn in O1. destruct o; contradiction.
    + destruct (in_dec Nat.eq_dec F (map af_id A)) as [I|I].
      2: { right. auto. }
      left. destruct (runs e) eqn:Er.
      2: { exfalso. destruct e; try discriminate; cbn [astep] in Ea; injection Ea as <-; cbn [as_fr] in EQ; rewrite map_map in EQ; cbn [refresh af_id] in EQ; rewrite <- EQ in NI; contradiction. }
      rewrite (Hn eq_refl). apply En.
      assert (I2 : In F M).
      { destruct Cs as [[_ ->]|[->|(_ & f & B & -> & -> & Hf)]]; [exact I|now right|]. destruct I as [I|I]; [|exact I]. exfalso. subst F.
        apply (si_hook _ _ S f (or_introl eq_refl)) in O. unfold hookb in O. now rewrite Hf in O. }
      rewrite EM in I2. apply in_app_iff in I2. destruct I2; [assumption|contradiction].
  - rewrite Sn, flat_map_app. destruct (runs e) eqn:Er.
    + rewrite (Hn eq_refl), En0. assert (NP : NoDup (rev P)).
      { apply NoDup_rev. rewrite EM in NdM. clear - NdM. induction P as [|y P IH]; [constructor|]. cbn [app] in NdM. apply NoDup_cons_iff in NdM. destruct NdM as [N1 N2].
        constructor; [intros I; apply N1, in_app_iff; now left|auto]. }
      assert (Dj : forall g, In g (rev P) -> ~ In g (flat_map end_of (h_tr (s_h s)))).
      { intros g I O. apply in_rev in I. apply over_in in O. assert (N1 := E1 g O). assert (N2 : g < h_nxt (s_h s)) by (destruct O as (z & O); now apply (li_fid _ _ _ L _ g) in O).
        destruct (Sub g) as [I2| ->]; [rewrite EM; apply in_app_iff; auto|contradiction|lia]. }
      revert NP Dj. generalize (rev P) as a. induction a as [|y a IH]; intros N1 N2; [exact E3|]. cbn [app]. apply NoDup_cons_iff in N1. constructor.
      * intros I. apply in_app_iff in I. destruct I as [I|I]; [now apply (proj1 N1)|]. now apply (N2 y (or_introl eq_refl)).
      * apply IH; [apply N1|]. intros g I. apply N2. now right.
    + assert (flat_map end_of new = []) as ->; [|exact E3]. specialize (Hnn eq_refl). clear - Hnn. induction Hnn as [|o l Ho Hl IH]; [reflexivity|]. cbn [flat_map]. rewrite IH. destruct o; cbn in *; try contradiction; reflexivity.
Qed.

Lemma EInv_run : forall m0 s A l s' A', (forall a, Z.odd (m0 a) = false) -> tracks s A l s' A' -> LInv m0 s A -> SInv s A -> EInv s A -> EInv s' A'.
Proof.
  intros m0 s A l s' A' Ev T. induction T as [s A|s A e s1 x l s' A' Al E Ea T IH]; intros L S I; [exact I|].
  apply IH.
  - destruct (step_loop m0 s A e s1 Ev L Al E) as (x' & new & Ea' & L' & _). assert (x' = x) by congruence. now subst x'.
  - eapply SInv_step; eauto.
  - eapply EInv_step; eauto.
Qed.
Lemma play_over : forall mem l s A F, play mem l s A -> In F (flat_map begins (h_tr (s_h s))) -> over (h_tr (s_h s)) F <-> ~ In F (map af_id A).
Proof.
  intros mem l s A F (Ev & pfs & vt & P & T) I. assert (L0 : LInv mem (init pfs mem vt) []) by (apply LInv_init; exact P).
  pose proof (EInv_run _ _ _ _ _ _ Ev T L0 (SInv_start _ _ _) (EInv_start _ _ _)) as [E1 E2 _]. split; auto.
Qed.
(** ... and returns once. *)
Lemma play_end_once : forall mem l s A F y z, play mem l s A -> In (OEnd F y) (h_tr (s_h s)) -> In (OEnd F z) (h_tr (s_h s)) -> y = z.
Proof.
  intros mem l s A F y z (Ev & pfs & vt & P & T). assert (L0 : LInv mem (init pfs mem vt) []) by (apply LInv_init; exact P).
  pose proof (EInv_run _ _ _ _ _ _ Ev T L0 (SInv_start _ _ _) (EInv_start _ _ _)) as [_ _ N]. revert N. generalize (h_tr (s_h s)) as t.
  induction t as [|o t IH]; intros N I1 I2; [contradiction|].
  assert (X : forall a b, o = OEnd F a -> In (OEnd F b) t -> False).
  { intros a b -> I. cbn [flat_map end_of app] in N. apply NoDup_cons_iff in N. apply (proj1 N). apply over_in. now exists b. }
  assert (N' : NoDup (flat_map end_of t)) by (destruct o; cbn [flat_map end_of app] in N; auto; now apply NoDup_cons_iff in N).
  destruct I1 as [I1|I1], I2 as [I2|I2]; [congruence|exfalso; eapply X; eauto|exfalso; eapply X; eauto|auto].
Qed.


(** ** Whatever happens in a call happens after its beginning *)
Definition call_of (o : obs) : option nat :=
  match o with
  | OHandler f _ _ _ _ | OHandlerRet f _ _ _ | ORecall f _ _ _ | OOrig f _ _ _ | OOrigRet f _ | OPost f | OEnd f _ => Some f
  | _ => None
  end.
Lemma call_fid : forall o F, call_of o = Some F -> fid_of o = Some F.
Proof. now intros []. Qed.
Definition hids (A : list aframe) : list nat := map af_id (filter hookb A).
Lemma hids_cons : forall f A, hids (f :: A) = if hookb f then af_id f :: hids A else hids A.
Proof. intros f A. unfold hids. cbn [filter]. destruct (hookb f); reflexivity. Qed.
Lemma hids_tail : forall f A, incl (hids A) (hids (f :: A)).
Proof. intros f A g H. rewrite hids_cons. destruct (hookb f); [now right|exact H]. Qed.
Lemma take_hids : forall A B, take_ign A = Some B -> hids B = hids A.
Proof.
  induction A as [|f A IH]; intros B H; cbn [take_ign] in H; [discriminate|]. destruct (af_hook f) eqn:Eh; [discriminate|].
  destruct (af_ign f).
  - injection H as <-. rewrite !hids_cons. unfold hookb. cbn [af_hook]. now rewrite Eh.
  - destruct (take_ign A) as [r|]; [|discriminate]. injection H as <-. rewrite !hids_cons. now rewrite (IH r).
Qed.
Lemma hemits_unwind : forall h A aft z w, emits (hids A) w (as_w (a_unwind h aft z A w)).
Proof.
  intros h A. induction A as [|f A IH]; intros aft z w; destruct aft; cbn [a_unwind as_w]; try apply emits_refl.
  - unfold a_reset. destruct (take_ign (f :: A)); cbn [as_w]; [apply emits_close|apply emits_refl].
  - destruct (af_hook f) as [a|] eqn:Eh; [|apply emits_refl].
    pose proof (emits_done h (af_id f) (depth A) (a_with_v (vs_cur MSupercede (a_v a)) a) z w) as M.
    apply (emits_more _ (hids (f :: A))) in M; [|intros x [<-|[]]; rewrite hids_cons; unfold hookb; rewrite Eh; now left].
    destruct (a_done _ _ _ _ _ _) as [a' w'|z' w']; cbn [out_w as_w] in *; [exact M|].
    eapply emits_trans; [exact M|]. apply (emits_more (hids A)); [apply hids_tail|apply IH].
Qed.
Lemma hemits_resume : forall h o F aft A w, emits [F] w (out_w o) -> emits (F :: hids A) w (as_w (a_resume h o F aft A)).
Proof.
  intros h o F aft A w M. apply (emits_more _ (F :: hids A)) in M; [|intros x [<-|[]]; now left].
  destruct o as [a w'|z w']; cbn [a_resume out_w as_w] in *; [exact M|].
  eapply emits_trans; [exact M|]. apply (emits_more (hids A)); [intros x Hx; now right|apply hemits_unwind].
Qed.
Definition begun (L : list nat) (t : list obs) : Prop :=
  forall t2 o t1 F, t = t2 ++ o :: t1 -> call_of o = Some F -> In F L \/ In F (flat_map begins t1).
Lemma begun_nil : forall L, begun L [].
Proof. intros L [|x t2] o t1 F E; discriminate. Qed.
Lemma begun_emits : forall L M w w', emits M w w' -> begun L (w_obs w) -> (forall F, In F M -> In F L \/ In F (flat_map begins (w_obs w))) -> begun L (w_obs w').
Proof.
  intros L M w w' (l & -> & Fl) B H. induction Fl as [|y l [_ My] Fl IH]; [exact B|]. intros t2 o t1 F E C. destruct t2 as [|z t2]; cbn [app] in E; injection E as E1 E2.
  - subst. destruct (H F (My F (call_fid _ _ C))); [now left|]. right. rewrite flat_map_app. apply in_app_iff. now right.
  - eapply IH; eauto.
Qed.
Lemma begun_one : forall L o w, begun L (w_obs w) -> (forall F, call_of o = Some F -> In F L) -> begun L (w_obs (wemit o w)).
Proof.
  intros L o w B H t2 o' t1 F E C. destruct t2 as [|z t2]; cbn [wemit w_obs app] in E; injection E as E1 E2; [subst; auto|]. eapply B; eauto.
Qed.
Lemma astep_begun : forall h h' A p e x, astep h h' A p e = Some x -> begun (hids A) (w_obs (as_w x)).
Proof.
  intros h h' A p e x E.
  destruct e as [this vo idx q|this vo idx q|z|m|res val offs vo idx q| | | | | | | | | |]; cbn [astep] in E; try (injection E as <-; apply begun_nil).
  - injection E as <-. destruct (is_hookcode _).
    + destruct (take_ign A) as [A1|] eqn:Et.
      * eapply begun_emits; [unfold a_ignored; eapply hemits_resume; apply emits_pre|apply begun_one; [apply begun_nil|discriminate]|].
        intros F [<-|I]; [right; now left|left]. now rewrite <- (take_hids _ _ Et).
      * eapply begun_emits; [unfold a_hooked; eapply hemits_resume; apply emits_pre|apply begun_one; [apply begun_nil|discriminate]|].
        intros F [<-|I]; [right; now left|now left].
    + apply begun_one; [apply begun_nil|discriminate].
  - injection E as <-. destruct (is_hookcode _).
    + eapply begun_emits; [unfold a_ignored; eapply hemits_resume; apply emits_pre|apply begun_one; [apply begun_nil|discriminate]|].
      intros F [<-|I]; [right; now left|now left].
    + apply begun_one; [apply begun_nil|discriminate].
  - destruct A as [|f A]; [discriminate|]. destruct (af_hook f) as [a|] eqn:Eh.
    + assert (Hf : In (af_id f) (hids (f :: A))) by (rewrite hids_cons; unfold hookb; rewrite Eh; now left).
      destruct (a_run a); injection E as <-.
      * eapply begun_emits; [eapply hemits_resume; apply emits_done|apply begun_nil|]. intros F [<-|I]; left; [exact Hf|now apply hids_tail].
      * eapply begun_emits; [eapply hemits_resume; apply emits_begin_post|apply begun_one; [apply begun_nil|intros F EF; injection EF as <-; exact Hf]|].
        intros F [<-|I]; left; [exact Hf|now apply hids_tail].
    + injection E as <-. assert (B1 : begun (hids (f :: A)) (w_obs (wemit (ONativeRet (af_id f) z) (World p [])))) by (apply begun_one; [apply begun_nil|discriminate]).
      destruct (af_ign f).
      * destruct (af_after f); cbn [as_w]; [exact B1| |exact B1]. eapply begun_emits; [apply (emits_close [])|exact B1|intros F []].
      * eapply begun_emits; [apply hemits_unwind|exact B1|]. intros F I. left. now apply hids_tail.
  - destruct A as [|f A]; [discriminate|]. destruct (af_hook f) as [a|]; [|discriminate]. destruct (a_run a); [|discriminate]. injection E as <-. apply begun_nil.
  - destruct A as [|f A]; [discriminate|]. destruct (af_hook f) as [a|] eqn:Eh; [|discriminate]. destruct (a_run a) as [[vp n]|]; [|discriminate]. injection E as <-.
    assert (Hf : In (af_id f) (hids (f :: A))) by (rewrite hids_cons; unfold hookb; rewrite Eh; now left).
    unfold a_recall. cbn zeta.
    eapply begun_emits; [eapply hemits_resume; instantiate (1 := wemit (OBegin (h_nxt h) (a_slot a) (a_this a) q (KRecall (af_id f))) (wemit (ORecall (af_id f) n res val) (World p [])));
      destruct (a_phase a); [apply emits_pre|apply emits_pre|apply emits_begin_post]| |].
    + apply begun_one; [apply begun_one; [apply begun_nil|]|discriminate]. intros F EF. injection EF as <-. exact Hf.
    + intros F [<-|I]; [right; now left|left]. rewrite hids_cons in I. cbn [hookb af_hook af_id] in I. rewrite hids_cons. unfold hookb at 1. rewrite Eh. exact I.
Qed.
Lemma play_begun : forall mem l s A t2 o t1 F, play mem l s A -> h_tr (s_h s) = t2 ++ o :: t1 -> call_of o = Some F -> In F (flat_map begins t1).
Proof.
  intros mem l s A t2 o t1 F (Ev & pfs & vt & P & T) E C. assert (L0 : LInv mem (init pfs mem vt) []) by (apply LInv_init; exact P).
  cut (begun [] (h_tr (s_h s))). { intros B. destruct (B _ _ _ _ E C) as [[]|]; auto. }
  clear t2 o t1 F E C.
  assert (G : forall s A l s' A', tracks s A l s' A' -> LInv mem s A -> SInv s A -> begun [] (h_tr (s_h s)) -> begun [] (h_tr (s_h s'))).
  { clear - Ev. intros s A l s' A' T. induction T as [s A|s A e s1 x l s' A' Al E Ea T IH]; intros L S B; [exact B|].
    destruct (step_loop mem s A e s1 Ev L Al E) as (x' & new & Ea' & L' & Sn & Ep & Hn & Hnn & _). assert (x' = x) by congruence. subst x'. unfold since in Sn.
    refine (IH L' (SInv_step _ _ _ _ _ _ Ev L Al E Ea S) _). intros t2 o t1 F EE C. right. rewrite Sn in EE.
    apply app_cases in EE. destruct EE as [(d & En & ->)|(c & Et & ->)].
    - destruct (runs e) eqn:Er.
      + rewrite (Hn eq_refl) in En. destruct (astep_begun _ _ _ _ _ _ Ea _ _ _ _ En C) as [I|I]; rewrite flat_map_app; apply in_app_iff; [right|now left].
        unfold hids in I. apply in_map_iff in I. destruct I as (f & <- & I). apply filter_In in I. destruct I as [I1 I2]. now apply (si_hook _ _ S f I1).
      + exfalso. specialize (Hnn eq_refl). rewrite Forall_forall in Hnn. assert (I : In o new) by (rewrite En; apply in_app_iff; right; now left). apply Hnn in I. destruct o; cbn in C, I; discriminate || contradiction.
    - destruct (B _ _ _ _ Et C) as [[]|]; auto. }
  exact (G _ _ _ _ _ T L0 (SInv_start _ _ _) (begun_nil _)).
Qed.
(** ... and a call begins only once. *)
Lemma play_begin : forall mem l s A F, play mem l s A -> In F (flat_map begins (h_tr (s_h s))) ->
  exists slot this p k, In (OBegin F slot this p k) (h_tr (s_h s)) /\ let v := see (h_tr (s_h s)) F in
    vw_slot v = slot /\ vw_this v = this /\ vw_param v = p /\ vw_ign v = match k with KIgnored => true | _ => false end.
Proof.
  intros mem l s A F Pl I. destruct (play_inv _ _ _ _ Pl) as [L _]. apply in_flat_map in I. destruct I as (o & I1 & I2). destruct o; try contradiction. destruct I2 as [->|[]].
  exists slot, this, param, k. split; [exact I1|]. exact (see_params _ _ _ _ _ _ I1 (li_beg _ _ _ L)).
Qed.
Lemma during_end : forall P s A l s' A', during P s A l s' A' -> P s'.
Proof. intros P s A l s' A' D. induction D; auto. Qed.

(** ** What is seen of a call only grows *)
Lemma begins_tail : forall t2 t1, NoDup (flat_map begins (t2 ++ t1)) -> NoDup (flat_map begins t1) /\
  forall F, In F (flat_map begins t1) -> ~ In F (flat_map begins t2).
Proof.
  intros t2 t1 N. rewrite flat_map_app in N. revert N. generalize (flat_map begins t2) as a, (flat_map begins t1) as b.
  induction a as [|x a IH]; intros b N; [auto|]. cbn [app] in N. apply NoDup_cons_iff in N. destruct N as [N1 N2]. destruct (IH b N2) as [I1 I2].
  split; [exact I1|]. intros F IF [->|I]; [apply N1, in_app_iff; now right|]. now apply (I2 F).
Qed.
Lemma see_mono : forall (P : view -> Prop) l t F, ~ In F (flat_map begins l) ->
  (forall v n, P v -> P (vw_call n v)) -> (forall v r z, P v -> P (vw_result r z v)) -> (forall v r z, P v -> P (vw_recall r z v)) ->
  (forall v, P v -> P (vw_origcall v)) -> (forall v z, P v -> P (vw_origret z v)) -> (forall v, P v -> P (vw_enter_post v)) ->
  P (see t F) -> P (see (l ++ t) F).
Proof.
  intros P l t F NI H1 H2 H3 H4 H5 H6 H. induction l as [|o l IH]; [exact H|]. cbn [flat_map] in NI. rewrite in_app_iff in NI.
  assert (IH' := IH (fun X => NI (or_intror X))). cbn [app see]. destruct o; auto; destruct (_ =? F) eqn:Ef; auto.
  exfalso. apply NI. left. left. now apply Nat.eqb_eq.
Qed.
Lemma post_mono : forall l t F, ~ In F (flat_map begins l) -> vw_post (see t F) = true -> vw_post (see (l ++ t) F) = true.
Proof. intros l t F N H. apply (see_mono (fun v => vw_post v = true)); auto; unfold vw_recall, vw_call, vw_result; intros v; intros; destruct (vw_post v) eqn:?; cbn in *; auto; congruence. Qed.
Lemma pre_mono : forall l t F n, ~ In F (flat_map begins l) -> In n (vw_pre (see t F)) -> In n (vw_pre (see (l ++ t) F)).
Proof. intros l t F n N H. apply (see_mono (fun v => In n (vw_pre v))); auto; unfold vw_recall, vw_call, vw_result; intros v; intros; destruct (vw_post v) eqn:?; cbn in *; auto. Qed.
Lemma pst_mono : forall l t F n, ~ In F (flat_map begins l) -> In n (vw_pst (see t F)) -> In n (vw_pst (see (l ++ t) F)).
Proof. intros l t F n N H. apply (see_mono (fun v => In n (vw_pst v))); auto; unfold vw_recall, vw_call, vw_result; intros v; intros; destruct (vw_post v) eqn:?; cbn in *; auto. Qed.
Lemma norig_mono : forall l t F k, ~ In F (flat_map begins l) -> k <= vw_norig (see t F) -> k <= vw_norig (see (l ++ t) F).
Proof. intros l t F k N H. apply (see_mono (fun v => k <= vw_norig v)); auto; unfold vw_recall, vw_call, vw_result; intros v; intros; destruct (vw_post v) eqn:?; cbn in *; auto. Qed.

(** The call begins before whatever is seen of it. *)
Lemma play_params : forall mem l s A t2 o t1 F, play mem l s A -> h_tr (s_h s) = t2 ++ o :: t1 -> call_of o = Some F ->
  exists slot this p k, In (OBegin F slot this p k) t1 /\ ~ In F (flat_map begins t2) /\ let v := see t1 F in
    vw_slot v = slot /\ vw_this v = this /\ vw_param v = p /\ vw_ign v = match k with KIgnored => true | _ => false end.
Proof.
  intros mem l s A t2 o t1 F Pl E C. pose proof (play_begun _ _ _ _ _ _ _ F Pl E C) as B. destruct (play_inv _ _ _ _ Pl) as [L _].
  pose proof (li_beg _ _ _ L) as Nd. rewrite E in Nd. destruct (begins_tail _ _ Nd) as [N1 N2]. destruct (begins_tail [o] t1 N1) as [N3 _].
  assert (NI : ~ In F (flat_map begins t2)) by (apply N2; cbn [flat_map]; apply in_app_iff; now right).
  apply in_flat_map in B. destruct B as (o' & I1 & I2). destruct o'; try contradiction. destruct I2 as [->|[]].
  exists slot, this, param, k. split; [exact I1|]. split; [exact NI|]. exact (see_params _ _ _ _ _ _ I1 N3).
Qed.
Lemma all_ok_app : forall m0 t2 t1, all_ok m0 (t2 ++ t1) -> all_ok m0 t1.
Proof. intros m0 t2 t1 H a o b E. apply (H (t2 ++ a) o b). rewrite E. now rewrite app_assoc. Qed.
(** No more pre handlers once the original function has been called *)
Lemma pre_fixed : forall m0 l t F, all_ok m0 (l ++ t) -> ~ In F (flat_map begins l) -> 1 <= vw_norig (see t F) -> vw_pre (see (l ++ t) F) = vw_pre (see t F).
Proof.
  intros m0 l t F. induction l as [|o l IH]; intros H NI N; [reflexivity|]. cbn [flat_map] in NI. rewrite in_app_iff in NI.
  assert (IH' := IH (all_ok_app m0 [o] (l ++ t) H) (fun X => NI (or_intror X)) N).
  assert (N' := norig_mono l t F 1 (fun X => NI (or_intror X)) N).
  destruct (H [] o (l ++ t) eq_refl) as (h & O). cbn [app see]. destruct o; auto; destruct (_ =? F) eqn:Ef; auto; apply Nat.eqb_eq in Ef; subst.
  - exfalso. apply NI. left. now left.
  - destruct O as (_ & _ & [Il|Il] & _); [|lia]. unfold vw_call. rewrite Il. exact IH'.
  - unfold vw_result. destruct (vw_post _); exact IH'.
  - unfold vw_recall, vw_result. destruct (vw_post _); exact IH'.
Qed.

(** The previous result, for a call that is no recall *)
Definition last_res (v : view) : meta := match (if vw_post v then vw_res2 v else vw_res1 v) with (r, _) :: _ => r | [] => MIgnored end.
Lemma prev_last : forall m0 t F slot this p k, (forall G, k <> KRecall G) -> all_ok m0 t -> NoDup (flat_map begins t) ->
  In (OBegin F slot this p k) t -> vw_rec (see t F) = false -> vw_prev (see t F) = last_res (see t F).
Proof.
  intros m0 t F slot this p k Hk. induction t as [|o t IH]; intros Ok Nd B Hr; [contradiction|].
  assert (Ok' := all_ok_app m0 [o] t Ok). assert (Nd' : NoDup (flat_map begins t)) by (now apply (begins_tail [o] t) in Nd).
  pose proof (all_facts _ _ Ok' F) as Fa. destruct (Ok [] o t eq_refl) as (h & O).
  destruct B as [->|B].
  { cbn [see]. rewrite Nat.eqb_refl. destruct k; try reflexivity. exfalso. eapply Hk. reflexivity. }
  specialize (IH Ok' Nd' B). destruct o; cbn [see] in *; auto; destruct (_ =? F) eqn:Ef; auto; apply Nat.eqb_eq in Ef; subst.
  - exfalso. cbn [flat_map begins app] in Nd. apply NoDup_cons_iff in Nd. apply (proj1 Nd). apply in_flat_map. eexists. split; [exact B|]. now left.
  - unfold last_res, vw_call in *. destruct (vw_post (see t F)) eqn:Ep; cbn in *; rewrite ?Ep in *; auto.
  - unfold last_res, vw_result in *. destruct (vw_post (see t F)) eqn:Ep; cbn in *; auto.
  - unfold vw_recall in Hr. cbn in Hr. discriminate.
  - destruct O as (O1 & O2 & [O3|(s & a & q & G & t' & E)]).
    + unfold last_res in *. cbn. now rewrite (proj2 (fa_no _ Fa O3)).
    + exfalso. rewrite E in B, Nd'. cbn [flat_map begins app] in Nd'. apply NoDup_cons_iff in Nd'. destruct B as [B|B].
      * injection B as _ _ _ Ek. eapply Hk. symmetry. exact Ek.
      * apply (proj1 Nd'). apply in_flat_map. eexists. split; [exact B|]. now left.
Qed.

(** ** A call begins in one event *)
Definition starts (s : state) (A : list aframe) (e : event) (s1 : state) (A1 : list aframe) (F : nat) (slot this p : Z) (k : kind) : Prop :=
  tracks s A [e] s1 A1 /\ In (OBegin F slot this p k) (h_tr (s_h s1)) /\ ~ In (OBegin F slot this p k) (h_tr (s_h s)).
Lemma tracks_one : forall s A e s1 A1, tracks s A [e] s1 A1 -> allowed (s_h s) A e /\ step s e = Ok s1 /\
  exists x, astep (s_h s) (s_h s1) A (b_pend (s_b s)) e = Some x /\ A1 = as_fr x.
Proof. intros s A e s1 A1 T. inversion T as [|? ? ? ? x ? ? ? Al E Ea T']; subst. inversion T'; subst. eauto 8. Qed.
Lemma one_tracks : forall s A e s1 x, allowed (s_h s) A e -> step s e = Ok s1 -> astep (s_h s) (s_h s1) A (b_pend (s_b s)) e = Some x -> tracks s A [e] s1 (as_fr x).
Proof. intros. econstructor; eauto. constructor. Qed.
Lemma tracks_trace : forall mem l s A l' s' A', play mem l s A -> tracks s A l' s' A' -> exists new, h_tr (s_h s') = new ++ h_tr (s_h s).
Proof. intros mem l s A l' s' A' Pl T. destruct (play_inv _ _ _ _ Pl) as [L _]. destruct (obs_rules _ _ _ _ _ _ (proj1 Pl) L T) as (new & E & _). eauto. Qed.
Lemma in_begins : forall t F slot this p k, In (OBegin F slot this p k) t -> In F (flat_map begins t).
Proof. intros t F slot this p k I. apply in_flat_map. eexists. split; [exact I|]. now left. Qed.

Lemma starts_waits : forall mem l s A e s1 A1 F slot this p post (vp : bool) n, play mem l s A -> starts s A e s1 A1 F slot this p KNormal ->
  live (s_h s1) slot (if vp then 0%Z else this) post n ->
  waits A1 (h_tr (s_h s1)) F slot this post vp n \/ was_run (h_tr (s_h s1)) F n.
Proof.
  intros mem l s A e s1 A1 F slot this p post vp n Pl (T & B & NB) Lv. destruct (play_inv _ _ _ _ Pl) as [L S].
  destruct (tracks_one _ _ _ _ _ T) as (Al & E & x & Ea & ->).
  destruct (step_loop mem s A e s1 (proj1 Pl) L Al E) as (x' & new & Ea' & L1 & Sn & Ep & Hn & Hnn & _). assert (x' = x) by congruence. subst x'. unfold since in Sn.
  cut (In (OBegin F slot this p KNormal) (w_obs (as_w x))); [intros I; exact (begin_waits _ _ _ _ _ _ _ _ _ _ _ _ _ (proj1 Pl) L Al E Ea I Lv)|].
  rewrite Sn in B. apply in_app_iff in B. destruct B as [B|B]; [|contradiction]. destruct (runs e) eqn:Er; [rewrite (Hn eq_refl) in B; exact B|].
  exfalso. specialize (Hnn eq_refl). rewrite Forall_forall in Hnn. now apply Hnn in B.
Qed.
(** A hook that waits when the call is over has been run. *)
Lemma waits_over : forall mem l s A l' s' A' F slot this post (vp : bool) n, play mem l s A ->
  during (fun q => live (s_h q) slot (if vp then 0%Z else this) post n) s A l' s' A' ->
  waits A (h_tr (s_h s)) F slot this post vp n \/ was_run (h_tr (s_h s)) F n -> over (h_tr (s_h s')) F -> was_run (h_tr (s_h s')) F n.
Proof.
  intros mem l s A l' s' A' F slot this post vp n Pl D W O. destruct (play_inv _ _ _ _ Pl) as [L _].
  assert (Pl' := play_more _ _ _ _ _ _ _ Pl (during_tracks _ _ _ _ _ _ D)).
  destruct (waits_run _ _ _ _ _ _ _ _ _ _ _ _ (proj1 Pl) D L W) as [W'|W']; [|exact W']. exfalso.
  destruct O as (z & O). apply in_split in O. destruct O as (t2 & t1 & E). pose proof (play_begun _ _ _ _ _ _ _ F Pl' E eq_refl) as B.
  apply (play_over _ _ _ _ F Pl'); [|exists z; rewrite E; apply in_app_iff; right; now left|eapply waits_in; eauto].
  rewrite E, flat_map_app. apply in_app_iff. right. cbn [flat_map]. exact B.
Qed.
