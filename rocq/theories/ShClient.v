(** The effect of the API on installed hooks, for reachable states. *)
From Coq Require Import List Bool Arith ZArith Lia Sorted Permutation.
From Verif Require Import ProtoModel ProtoSpec ProtoProofs ShModel ShRun ShLists ShInv ShMan ShHooks ShAdd ShRem ShApi ShUnload ShHist ShGood ShPool ShSpec ShView ShChange ShMgr ShOrder ShOwned.
Import ListNotations.
Local Open Scope nat_scope.

Lemma G : forall mem s, reachable mem s -> Good mem s.
Proof. exact reachable_good. Qed.
Lemma W : forall mem s, reachable mem s -> WF mem (s_k s).
Proof. intros mem s R. exact (g_wf _ _ (G mem s R)). Qed.
Lemma Wh : forall mem s, reachable mem s -> WH (s_h s).
Proof. intros mem s R. exact (wf_h _ _ (W mem s R)). Qed.

Lemma cl_unique : forall mem s, reachable mem s -> forall sl a p k sl' a' p' k', In k (installed (s_h s) sl a p) -> In k' (installed (s_h s) sl' a' p') ->
  hk_id k = hk_id k' -> sl = sl' /\ a = a' /\ p = p' /\ k = k'.
Proof. intros. eapply ids_unique; eauto using (Wh mem). Qed.

Lemma cl_pos : forall mem s, reachable mem s -> forall sl a p k, In k (installed (s_h s) sl a p) -> (1 <= hk_id k)%Z.
Proof. intros. eapply installed_pos; eauto using (Wh mem). Qed.

Lemma cl_add : forall mem s, reachable mem s -> forall plug mode ifp offs pf handler post,
  match add_hook (s_h s) plug mode ifp offs pf handler post with
  | None => mode <> ADVP /\ (ifp + offs)%Z = 0%Z
  | Some (h', id) =>
      (id = 0%Z /\ h' = s_h s /\ (h_pfs (s_h s) pf = None \/ exists i, h_pfs (s_h s) pf = Some i /\ pf_ver i = (-1)%Z)) \/
      ((1 <= id)%Z /\ exists i hk, h_pfs (s_h s) pf = Some i /\ pf_ver i <> (-1)%Z /\ recorded h' id i /\
        hk_id hk = id /\ hk_plug hk = plug /\ hk_offs hk = offs /\ hk_handler hk = handler /\ hk_paused hk = false /\
        (forall sl a p k, In k (installed (s_h s) sl a p) -> hk_id k <> id /\ hk_nid k <> hk_nid hk) /\
        (forall sl a p, installed h' sl a p =
           installed (s_h s) sl a p ++
           (if Z.eqb sl (add_slot (s_h s) mode ifp offs i) && Z.eqb a (add_ptr mode ifp offs) && Bool.eqb p post then [hk] else [])))
  end.
Proof.
  intros mem s Rch plug mode ifp offs pf handler post. pose proof (Wh mem s Rch) as Wh.
  destruct (add_hook_cases mem s plug mode ifp offs pf handler post (G mem s Rch)) as [[Ev Ea]|[(H1 & H2 & _ & Ea)|(info & h' & hk & Ef & Ea & E1 & E2 & E3 & E4 & A & G' & _ & _ & Rc)]]; rewrite Ea.
  - left. split; [reflexivity|]. split; [reflexivity|]. unfold pf_valid in Ev. destruct (h_pfs (s_h s) pf) as [i|]; [|auto]. right. exists i.
    split; [reflexivity|]. destruct (Z.eqb (pf_ver i) (-1)) eqn:E; [apply Z.eqb_eq; exact E|discriminate].
  - auto.
  - right. split; [pose proof (ad_pos _ _ _ _ _ _ A); lia|]. exists info, hk.
    assert (Ei : h_pfs (s_h s) pf = Some info /\ pf_ver info <> (-1)%Z).
    { unfold pf_valid in Ef. destruct (h_pfs (s_h s) pf) as [i|]; [|discriminate]. destruct (Z.eqb (pf_ver i) (-1)) eqn:E; [discriminate|].
      injection Ef as ->. split; [reflexivity|]. apply Z.eqb_neq. exact E. }
    destruct Ei as [Ei Ei2]. split; [exact Ei|]. split; [exact Ei2|]. split; [exact Rc|]. split; [reflexivity|].
    split; [exact E1|]. split; [exact E2|]. split; [exact E3|]. split; [exact E4|]. split.
    + intros sl a p k Hk. split.
      * intros C. pose proof (ad_new _ _ _ _ _ _ A) as N. destruct (installed_query _ _ _ _ _ Wh Hk) as (e & Q & _). congruence.
      * pose proof (installed_deleg _ _ _ _ _ Wh Hk) as Hd. pose proof (wh_fresh_n _ Wh _ Hd). pose proof (ad_fresh _ _ _ _ _ _ A). lia.
    + intros sl a p. pose proof (added_installed _ _ _ _ _ _ Wh (wf_h _ _ (g_wf _ _ G')) A sl a p) as X.
      replace (add_slot (s_h s) mode ifp offs info) with (fst (hook_target (s_h s) mode ifp offs info)) by (destruct mode; reflexivity).
      replace (add_ptr mode ifp offs) with (snd (hook_target (s_h s) mode ifp offs info)) by (destruct mode; reflexivity).
      exact X.
Qed.

(** Removals *)
Definition rem_effect (mem : Z -> Z) (s s' : state) (D : Z -> bool) : Prop :=
  Good mem s' /\ (forall sl a p, installed (s_h s') sl a p = without (fun k => D (hk_id k)) (installed (s_h s) sl a p)) /\
  exists new, since s s' new /\ NoDup (deleted new) /\
    (forall n, In n (deleted new) <-> exists sl a p k, In k (installed (s_h s) sl a p) /\ D (hk_id k) = true /\ hk_nid k = n).

Lemma rem_effect_intro : forall mem s k D, Good mem s -> WF mem k -> removed (s_h s) (c_h k) D -> qstep (s_h s) (c_h k) ->
  rem_effect mem s (with_k s k) D.
Proof.
  intros mem s k D Gs Wk R [_ (l & E & F & P)]. pose proof (Good_removed mem s k D Gs Wk R) as G'.
  split; [exact G'|]. split.
  - apply (removed_installed (s_h s) (c_h k)); [exact (wf_h _ _ (g_wf _ _ Gs))|exact (wf_h _ _ Wk)|exact R].
  - exists l. split; [exact E|]. apply (destroyed_exact mem s (with_k s k) l D Gs G'); [exact E| |exact P]. apply R.
Qed.

Lemma cl_remove_by_id : forall mem s, reachable mem s -> forall id,
  exists k' b, remove_by_id (s_k s) id = Some (k', b) /\ step s (ERemoveById id) = Ok (with_k s k') /\
    (b = true <-> exists sl a p k, In k (installed (s_h s) sl a p) /\ hk_id k = id) /\
    (b = false -> k' = s_k s) /\
    (forall sl a p, installed (c_h k') sl a p = without (fun k => Z.eqb (hk_id k) id) (installed (s_h s) sl a p)) /\
    (forall sl a p k, In k (installed (s_h s) sl a p) -> hk_id k = id ->
       exists new, since s (with_k s k') new /\ deleted new = [hk_nid k]).
Proof.
  intros mem s R id. pose proof (Wh mem s R) as Hw. pose proof (W mem s R) as Hf.
  destruct (query_hook (h_ids (s_h s)) id) as [e|] eqn:Q.
  - destruct (remove_by_id_ok mem (s_k s) id e Hf Q) as (v & i & hk & k' & L & Er & W' & Rm & _ & _).
    assert (Q' : qstep (s_h s) (c_h k')).
    { assert (X : remove_ids (s_k s) [id] = Some (k', true || false)) by (cbn [remove_ids]; rewrite Er; reflexivity).
      exact (q_remove_ids _ _ _ _ X). }
    destruct (rem_effect_intro mem s k' _ (G mem s R) W' Rm Q') as (G' & Ei & new & N & ND & Dn).
    exists k', true. split; [exact Er|]. split; [cbn [step]; rewrite Er; reflexivity|]. split; [|split; [discriminate|]].
    + split; [|auto]. intros _. destruct (query_installed _ _ _ Hw Q) as (k & Hk & Ek). eauto 8.
    + split.
      * intros sl a p. refine (eq_trans (Ei sl a p) _). unfold without. apply filter_ext. intros k. rewrite Z.eqb_sym. reflexivity.
      * intros sl a p k Hk Ek. exists new. split; [exact N|]. apply nodup_single; [exact ND|]. intros y. rewrite Dn. split.
        -- intros (sl' & a' & p' & k1 & H1 & D1 & <-). apply Z.eqb_eq in D1. destruct (cl_unique mem s R _ _ _ _ _ _ _ _ Hk H1) as (_ & _ & _ & ->); congruence.
        -- intros ->. exists sl, a, p, k. split; [exact Hk|]. split; [apply Z.eqb_eq; auto|reflexivity].
  - assert (Nn : forall sl a p k, In k (installed (s_h s) sl a p) -> hk_id k <> id).
    { intros sl a p k Hk C. destruct (installed_query _ _ _ _ _ Hw Hk) as (e & Q' & _). congruence. }
    pose proof (remove_by_id_none (s_k s) id Q) as Er. exists (s_k s), false. split; [exact Er|]. split; [cbn [step]; rewrite Er; reflexivity|].
    split; [|split; [reflexivity|split]].
    + split; [discriminate|]. intros (sl & a & p & k & Hk & C). destruct (Nn _ _ _ _ Hk C).
    + intros sl a p. unfold without. rewrite filter_all; [reflexivity|]. intros k Hk. apply negb_true_iff, Z.eqb_neq. apply (Nn _ _ _ _ Hk).
    + intros sl a p k Hk C. destruct (Nn _ _ _ _ Hk C).
Qed.

Lemma cl_remove_hook : forall mem s, reachable mem s -> forall plug ifp offs pf handler post,
  exists k' b D, remove_hook (s_k s) plug ifp offs pf handler post = Some (k', b) /\
    step s (ERemoveHook plug ifp offs pf handler post) = Ok (with_k s k') /\
    (forall sl a p, installed (c_h k') sl a p = without D (installed (s_h s) sl a p)) /\
    (forall sl a p k, In k (installed (s_h s) sl a p) ->
       (D k = true <-> rm_target (s_h s) plug ifp offs pf handler post a p k)) /\
    (b = true <-> exists sl a p k, In k (installed (s_h s) sl a p) /\ rm_target (s_h s) plug ifp offs pf handler post a p k) /\
    (exists new, since s (with_k s k') new /\ NoDup (deleted new) /\
       forall n, In n (deleted new) <-> exists sl a p k, In k (installed (s_h s) sl a p) /\ rm_target (s_h s) plug ifp offs pf handler post a p k /\ hk_nid k = n).
Proof.
  intros mem s R plug ifp offs pf handler post. pose proof (Wh mem s R) as Hw. pose proof (W mem s R) as Hf.
  destruct (h_pfs (s_h s) pf) as [info|] eqn:Ef.
  - destruct (remove_hook_ok mem (s_k s) plug ifp offs pf handler post info Hf (g_pf _ _ (G mem s R)) Ef) as (k' & b & D & Er & W' & Rm & _ & HD & Hb).
    assert (Q : qstep (s_h s) (c_h k')) by (eapply q_remove_hook; exact Er).
    destruct (rem_effect_intro mem s k' _ (G mem s R) W' Rm Q) as (G' & Ei & new & N & ND & Dn).
    assert (X : forall sl a p k, In k (installed (s_h s) sl a p) -> (D (hk_id k) = true <-> rm_target (s_h s) plug ifp offs pf handler post a p k)).
    { intros sl a p k Hk. destruct (installed_query _ _ _ _ _ Hw Hk) as (e & Qe & Ee). rewrite (HD _ _ Qe). destruct Ee as (E1 & E2 & E3 & E4 & E5 & E6 & E7).
      unfold hook_matches, rm_target. split.
      - intros (M1 & M2 & M3 & M4 & M5 & M6 & M7 & M8). exists info, (en_info e). split; [exact Ef|]. split; [exists e; auto|].
        split; [exact M1|]. split; [exact M2|]. split; [exact M3|]. repeat split; congruence.
      - intros (i & i0 & F1 & (e' & Qe' & <-) & M1 & M2 & M3 & M4 & M5 & M6 & M7 & M8). rewrite Qe in Qe'. injection Qe' as <-. rewrite Ef in F1. injection F1 as <-.
        split; [exact M1|]. split; [exact M2|]. split; [exact M3|]. repeat split; congruence. }
    exists k', b, (fun k => D (hk_id k)). split; [exact Er|]. split; [cbn [step]; rewrite Er; reflexivity|]. split; [exact Ei|]. split; [exact X|]. split.
    + rewrite Hb. split.
      * intros (id & e & Qe & M). destruct (query_installed _ _ _ Hw Qe) as (k & Hk & <-). eexists _, _, _, k. split; [exact Hk|]. apply (X _ _ _ _ Hk). apply (HD _ _ Qe). exact M.
      * intros (sl & a & p & k & Hk & M). destruct (installed_query _ _ _ _ _ Hw Hk) as (e & Qe & _). exists (hk_id k), e. split; [exact Qe|]. apply (HD _ _ Qe). apply (X _ _ _ _ Hk). exact M.
    + exists new. split; [exact N|]. split; [exact ND|]. intros n. rewrite Dn. split; intros (sl & a & p & k & Hk & M & En); exists sl, a, p, k; (split; [exact Hk|split; [apply (X _ _ _ _ Hk); exact M|exact En]]).
  - assert (Nn : forall a p k, ~ rm_target (s_h s) plug ifp offs pf handler post a p k) by (intros a p k (i & i0 & C & _); congruence).
    assert (Er : remove_hook (s_k s) plug ifp offs pf handler post = Some (s_k s, false)).
    { unfold remove_hook. change (c_h (s_k s)) with (s_h s). rewrite Ef. reflexivity. }
    exists (s_k s), false, (fun _ => false). split; [exact Er|]. split; [cbn [step]; rewrite Er; reflexivity|].
    split; [intros; unfold without; rewrite filter_all; auto|]. split; [intros sl a p k _; split; [discriminate|intros C; destruct (Nn _ _ _ C)]|].
    split; [split; [discriminate|intros (sl & a & p & k & _ & C); destruct (Nn _ _ _ C)]|].
    exists []. split; [reflexivity|]. split; [constructor|]. intros n. split; [intros []|intros (sl & a & p & k & _ & C & _); destruct (Nn _ _ _ C)].
Qed.

Lemma cl_slot : forall mem s, reachable mem s -> forall sl,
  (hooked (s_h s) sl -> exists o f, hd_error (managers (s_h s) sl) = Some o /\ hook_function (s_h s) o = Some f /\
      h_mem (s_h s) sl = CHook f /\ orig_entry (s_h s) sl = Some (COrig (mem sl))) /\
  (~ hooked (s_h s) sl -> h_mem (s_h s) sl = COrig (mem sl) /\ orig_entry (s_h s) sl = None).
Proof.
  intros mem s R sl. pose proof (Wh mem s R) as Hw. pose proof (W mem s R) as Hf. pose proof (wf_m _ _ Hf) as Wm. change (c_h (s_k s)) with (s_h s) in Wm.
  pose proof (hooked_vfn (s_h s) sl (wf_n _ _ Hf)) as Hv. split; intros H.
  - apply Hv in H. destruct H as (v & Iv & <-). rewrite (managers_vfn _ v Hw Iv). pose proof (wm_mem _ _ Wm v Iv) as M. unfold slot_code in M.
    pose proof (wm_ref _ _ Wm v) as Rf. pose proof (proj1 (wf_n _ _ Hf v Iv)) as Ne. destruct (vf_mans v) as [|o ms] eqn:Em; [contradiction|].
    destruct (Rf o Iv (or_introl eq_refl)) as (m & Gm). unfold man_pf in M. rewrite Gm in M. injection M as M.
    exists o, (mn_pf m). split; [reflexivity|]. split; [unfold hook_function; rewrite Gm; reflexivity|]. split; [auto|].
    unfold orig_entry. assert (F : find (vfn_at (vf_ptr v)) (h_vfns (s_h s)) = Some v).
    { apply (find_key (vfn_at (vf_ptr v)) vf_ptr (vf_ptr v)); auto; [|apply (wh_vptr _ Hw)]. intros x. unfold vfn_at. rewrite Z.eqb_eq. split; congruence. }
    rewrite F. rewrite (wm_orig _ _ Wm v Iv). reflexivity.
  - assert (N : forall v, In v (h_vfns (s_h s)) -> vf_ptr v <> sl) by (intros v Iv C; apply H, Hv; eauto).
    split; [apply (wm_mem0 _ _ Wm); exact N|]. unfold orig_entry. destruct (find (vfn_at sl) (h_vfns (s_h s))) as [v|] eqn:F; [|reflexivity].
    destruct (find_some _ _ F) as [Iv Ev]. unfold vfn_at in Ev. apply Z.eqb_eq in Ev. destruct (N v Iv). congruence.
Qed.

Lemma cl_delegs : forall mem s, reachable mem s ->
  NoDup (deleted (h_tr (s_h s))) /\
  (forall sl a p k, In k (installed (s_h s) sl a p) -> ~ In (hk_nid k) (deleted (h_tr (s_h s)))) /\
  (forall sl a p k sl' a' p' k', In k (installed (s_h s) sl a p) -> In k' (installed (s_h s) sl' a' p') -> hk_nid k = hk_nid k' -> k = k').
Proof.
  intros mem s R. pose proof (Wh mem s R) as Hw. destruct (g_wd _ _ (G mem s R)) as [ND _]. apply nodup_app in ND. destruct ND as (N1 & N2 & N3).
  split; [exact N1|]. split.
  - intros sl a p k Hk C. apply (N3 _ C). exact (installed_deleg _ _ _ _ _ Hw Hk).
  - intros sl a p k sl' a' p' k' H H' E. destruct (installed_query _ _ _ _ _ Hw H) as (e & Q & _ & _ & _ & _ & _ & E1 & _).
    destruct (installed_query _ _ _ _ _ Hw H') as (e' & Q' & _ & _ & _ & _ & _ & E1' & _).
    assert (hk_id k = hk_id k') by (eapply (wh_nid _ Hw); eauto; congruence).
    apply (cl_unique mem s R _ _ _ _ _ _ _ _ H H'); auto.
Qed.

Lemma cl_quiet : forall mem s, reachable mem s -> never_called_destroyed (h_tr (s_h s)).
Proof.
  intros mem s (pfs & vt & l & P & E). apply (run_quiet mem l (init pfs mem vt)); auto; [apply Good_init; exact P|].
  intros t1 t2 f n hd ip pr C. destruct t1; discriminate.
Qed.

Lemma pause_hook_when : forall D p k, pause_hook D p k = pause_when (fun k => D (hk_id k)) p k.
Proof. reflexivity. Qed.

Lemma cl_pause : forall mem s, reachable mem s -> forall id p,
  exists h' b, set_paused (s_h s) id p = (h', b) /\ step s (EPause id p) = Ok (with_k s (Core h' (c_cs (s_k s)) (c_tasks (s_k s)))) /\
    (b = true <-> exists sl a q k, In k (installed (s_h s) sl a q) /\ hk_id k = id) /\
    (b = false -> h' = s_h s) /\
    (forall sl a q, installed h' sl a q = map (pause_when (fun k => Z.eqb (hk_id k) id) p) (installed (s_h s) sl a q)).
Proof.
  intros mem s R id p. pose proof (Wh mem s R) as Hw. pose proof (W mem s R) as Hf. pose proof (set_paused_eq (s_h s) id p Hw) as X.
  eexists _, _. split; [exact X|]. split; [cbn [step]; rewrite X; reflexivity|].
  assert (Y : forall k, (exists sl a q, In k (installed (s_h s) sl a q)) -> hk_id k = id -> query_hook (h_ids (s_h s)) id <> None).
  { intros k (sl & a & q & Hk) <-. destruct (installed_query _ _ _ _ _ Hw Hk) as (e & Q & _). congruence. }
  split; [|split].
  - destruct (query_hook (h_ids (s_h s)) id) as [e|] eqn:Q.
    + split; [|auto]. intros _. destruct (query_installed _ _ _ Hw Q) as (k & Hk & Ek). eauto 8.
    + split; [discriminate|]. intros (sl & a & q & k & Hk & Ek). destruct (Y k ltac:(eauto) Ek). reflexivity.
  - destruct (query_hook (h_ids (s_h s)) id) as [e|] eqn:Q; [discriminate|]. intros _.
    rewrite map_id_in; [destruct (s_h s); reflexivity|]. intros v Hv. apply pause_vfn_off. intros i q k Hi Hk. apply Z.eqb_neq. intros C.
    apply (Y k); auto. exists (vf_ptr v), (if_ptr i), q. rewrite (installed_iface _ v i q Hw Hv Hi). exact Hk.
  - intros sl a q. rewrite pause_installed; [|exact Hw|].
    + apply map_ext. intros k. rewrite pause_hook_when. unfold pause_when. rewrite Z.eqb_sym. reflexivity.
    + exact (wf_h _ _ (pause_WF mem (s_k s) (Z.eqb id) p Hf)).
Qed.

Lemma cl_pause_plugin : forall mem s, reachable mem s -> forall plug p,
  exists s', step s (EPausePlugin plug p) = Ok s' /\
    (forall sl a q, installed (s_h s') sl a q = map (pause_when (fun k => Z.eqb (hk_plug k) plug) p) (installed (s_h s) sl a q)).
Proof.
  intros mem s R plug p. pose proof (Wh mem s R) as Hw. pose proof (W mem s R) as Hf.
  eexists. split; [reflexivity|]. destruct (pause_plugin_ok mem (s_k s) plug p Hf) as [W' (D & X & HD)]. change (c_h (s_k s)) with (s_h s) in X, HD, W'.
  intros sl a q. match goal with |- ?l = _ => change l with (installed (pause_plugin (s_h s) plug p) sl a q) end.
  assert (Wx : WH (set_vfns (s_h s) (map (pause_vfn D p) (h_vfns (s_h s))))) by (rewrite <- X; exact (wf_h _ _ W')).
  rewrite X. refine (eq_trans (pause_installed (s_h s) D p Hw Wx sl a q) _).
  apply map_ext_in. intros k Hk. rewrite pause_hook_when. unfold pause_when. apply in_installed in Hk. specialize (HD _ _ _ _ Hk).
  rewrite <- (Z.eqb_eq (hk_plug k) plug) in HD. rewrite (bool_iff _ _ HD). reflexivity.
Qed.

Lemma cl_ran : forall mem s e s', reachable mem s -> step s e = Ok s' ->
  exists new, since s s' new /\
    forall f n hd ip pr, In (OHandler f n hd ip pr) new ->
      exists sl a p k, In k (installed (s_h s) sl a p) /\ hk_nid k = n /\ hk_handler k = hd /\ hk_paused k = false.
Proof.
  intros mem s e s' R E. destruct (step_change mem s e s' (G mem s R) E) as (new & N & C). exists new. split; [exact N|].
  intros f n hd ip pr Hi. destruct C as [A1 A2 A3 A4|slot adj post hk A1 A2 A3 A4|D A1 A2 A3 A4 A5|D q A1 A2 A3 A4].
  - rewrite Forall_forall in A4. destruct (A4 _ Hi) as (sl & a & p & k & Hk & X). exists sl, a, p, k. split; [apply in_installed; exact Hk|exact X].
  - rewrite Forall_forall in A4. destruct (A4 _ Hi).
  - rewrite Forall_forall in A5. destruct (A5 _ Hi).
  - subst new. destruct Hi.
Qed.

Lemma cl_unload : forall mem s, reachable mem s -> forall plug listener,
  exists s', step s (EUnload plug listener) = Ok s' /\
    (forall sl a p k, In k (installed (s_h s') sl a p) -> hk_plug k <> plug) /\
    (forall o, manager_of (s_h s') o <> Some plug) /\
    (forall o, manager_of (s_h s) o <> Some plug -> manager_of (s_h s') o = manager_of (s_h s) o) /\
    (exists D, forall sl a p, installed (s_h s') sl a p = without D (installed (s_h s) sl a p)) /\
    (no_orphans (s_h s) -> no_orphans (s_h s') /\
       forall sl a p, installed (s_h s') sl a p = without (fun k => Z.eqb (hk_plug k) plug) (installed (s_h s) sl a p)) /\
    (forall sl, hooked (s_h s') sl -> exists o f q, h_mem (s_h s') sl = CHook f /\
       In o (managers (s_h s') sl) /\ hook_function (s_h s') o = Some f /\ manager_of (s_h s') o = Some q /\ q <> plug).
Proof.
  intros mem s R plug listener. pose proof (Wh mem s R) as Hw. pose proof (W mem s R) as Hf.
  destruct (unload_hooks_ok mem (s_k s) plug Hf) as (k' & D & Eu & W' & Rm & HD & Hm & Hk & Ow & _).
  assert (X : exists s', step s (EUnload plug listener) = Ok s' /\ h_vfns (s_h s') = h_vfns (c_h k') /\ h_mans (s_h s') = h_mans (c_h k') /\
     h_mem (s_h s') = h_mem (c_h k') /\ WH (s_h s')).
  { cbn [step]. unfold unload_plugin. rewrite Eu. destruct (cs_depth (c_cs k') =? 0).
    - eexists. split; [reflexivity|]. split; [reflexivity|]. split; [reflexivity|]. split; [reflexivity|].
      pose proof (wf_h _ _ W') as Y. destruct Y as [Y1 Y2 Y3 Y4 Y5 Y6 Y7 Y8 Y9 Y10 Y11 Y12]. constructor; assumption.
    - eexists. split; [reflexivity|]. split; [reflexivity|]. split; [reflexivity|]. split; [reflexivity|]. exact (wf_h _ _ W'). }
  destruct X as (s' & Es & Ev & Em & Ec & Hw').
  assert (In' : forall sl a p, installed (s_h s') sl a p = without (fun k => D (hk_id k)) (installed (s_h s) sl a p)).
  { intros sl a p. rewrite (installed_ext _ _ Ev). exact (removed_installed (s_h s) (c_h k') D Hw (wf_h _ _ W') Rm sl a p). }
  assert (Mo : forall o, manager_of (s_h s') o = match get_man (s_h s) o with Some m => if Z.eqb (mn_plug m) plug then None else Some (mn_plug m) | None => None end).
  { intros o. unfold manager_of. specialize (Hk o). change (c_h (s_k s)) with (s_h s) in Hk. unfold get_man in *. rewrite Em.
    destruct (find (man_is o) (h_mans (c_h k'))) as [m'|]; destruct (find (man_is o) (h_mans (s_h s))) as [m|]; cbn [option_map] in *; try discriminate; auto.
    - destruct (Z.eqb (mn_plug m) plug); [discriminate|]. injection Hk as _ K _ _. congruence.
    - destruct (Z.eqb (mn_plug m) plug); [reflexivity|discriminate]. }
  exists s'. split; [exact Es|]. split; [|split; [|split; [|split; [|split]]]].
  - intros sl a p k Hi C. rewrite In' in Hi. unfold without in Hi. apply filter_In in Hi. destruct Hi as [Hi Hd].
    destruct (installed_query _ _ _ _ _ Hw Hi) as (e & Q & _ & _ & _ & Ep & _). rewrite (HD _ _ Q) in Hd; [discriminate|congruence].
  - intros o. rewrite Mo. destruct (get_man (s_h s) o) as [m|]; [|discriminate]. destruct (Z.eqb (mn_plug m) plug) eqn:E; [discriminate|].
    apply Z.eqb_neq in E. congruence.
  - intros o N. rewrite Mo. unfold manager_of in *. destruct (get_man (s_h s) o) as [m|]; [|reflexivity]. cbn [option_map] in *.
    destruct (Z.eqb (mn_plug m) plug) eqn:E; [|reflexivity]. apply Z.eqb_eq in E. congruence.
  - exists (fun k => D (hk_id k)). exact In'.
  - intros N. apply (owned_orphans _ Hw) in N. destruct (Ow N) as [O' HD']. split.
    + apply (owned_orphans _ Hw'). apply (owned_same (c_h k')); auto.
    + intros sl a p. rewrite In'. apply filter_ext_on. intros k Hi. f_equal. apply bool_iff.
      destruct (installed_query _ _ _ _ _ Hw Hi) as (e & Q & _ & _ & _ & Ep & _). rewrite (HD' _ _ Q), Z.eqb_eq, Ep. reflexivity.
  - intros sl H. assert (Wn : WN (s_h s')). { intros v Hv. rewrite Ev in Hv. exact (wf_n _ _ W' v Hv). }
    apply (hooked_vfn _ _ Wn) in H. destruct H as (v & Iv & <-). pose proof Iv as Iv'. rewrite Ev in Iv. rewrite (managers_vfn _ v Hw' Iv').
    pose proof (wm_mem _ _ (wf_m _ _ W') v Iv) as M. unfold slot_code in M. pose proof (wm_ref _ _ (wf_m _ _ W') v) as Rf.
    destruct (wf_n _ _ W' v Iv) as [Ne _]. destruct (vf_mans v) as [|o ms]; [contradiction|].
    destruct (Rf o Iv (or_introl eq_refl)) as (m & Gm). unfold man_pf in M. rewrite Gm in M. injection M as M.
    exists o, (mn_pf m), (mn_plug m). rewrite Ec. split; [auto|]. split; [left; reflexivity|].
    unfold hook_function, manager_of, get_man. rewrite Em. unfold get_man in Gm. rewrite Gm. split; [reflexivity|]. split; [reflexivity|].
    apply Hm. apply (find_some _ _ Gm).
Qed.

Lemma cl_shutdown : forall mem s, reachable mem s ->
  exists s' new, step s EShutdown = Ok s' /\ since s s' new /\
    (forall sl a p, installed (s_h s') sl a p = []) /\ (forall sl, h_mem (s_h s') sl = COrig (mem sl)) /\
    (forall sl a p k, In k (installed (s_h s) sl a p) -> In (hk_nid k) (deleted new)).
Proof.
  intros mem s R. pose proof (Wh mem s R) as Hw. pose proof (W mem s R) as Hf.
  destruct (complete_shutdown_ok mem (s_k s) Hf) as (k' & D & Er & W' & Rm & HD & _).
  assert (Q : qstep (s_h s) (c_h k')) by (eapply q_shutdown; exact Er).
  destruct (rem_effect_intro mem s k' _ (G mem s R) W' Rm Q) as (G' & Ei & new & N & ND & Dn).
  assert (Z0 : forall sl a p k, In k (installed (s_h s) sl a p) -> D (hk_id k) = true).
  { intros sl a p k Hk. destruct (installed_query _ _ _ _ _ Hw Hk) as (e & Qe & _). apply (HD _ _ Qe). }
  assert (I0 : forall sl a p, installed (c_h k') sl a p = []).
  { intros sl a p. refine (eq_trans (Ei sl a p) _). apply filter_none. intros k Hk. rewrite (Z0 _ _ _ _ Hk). reflexivity. }
  exists (with_k s k'), new. split; [cbn [step]; rewrite Er; reflexivity|]. split; [exact N|]. split; [exact I0|]. split.
  - intros sl. apply (wm_mem0 _ _ (wf_m _ _ W')). intros v Hv C. destruct (proj2 (hooked_vfn _ sl (wf_n _ _ W'))) as (a & p & k & Hk); [eauto|].
    rewrite I0 in Hk. destruct Hk.
  - intros sl a p k Hk. apply Dn. exists sl, a, p, k. eauto.
Qed.

Lemma cl_remove_man : forall mem s, reachable mem s -> forall plug pf o,
  manager_of (s_h s) o = Some plug -> hook_function (s_h s) o = Some pf ->
  exists s', step s (ERemoveMan plug pf) = Ok s' /\ manager_of (s_h s') o = None /\
    (forall o', o' <> o -> manager_of (s_h s') o' = manager_of (s_h s) o') /\
    (forall sl, managers (s_h s) sl = [o] -> forall a p, installed (s_h s') sl a p = []) /\
    (forall sl, managers (s_h s) sl <> [o] -> forall a p, installed (s_h s') sl a p = installed (s_h s) sl a p).
Proof.
  intros mem s R plug pf o Ep Ef. pose proof (Wh mem s R) as Hw. pose proof (W mem s R) as Hf. pose proof (wf_m _ _ Hf) as Wm. change (c_h (s_k s)) with (s_h s) in Wm.
  unfold manager_of, hook_function in Ep, Ef. destruct (get_man (s_h s) o) as [m|] eqn:Gm; [|discriminate]. injection Ep as Ep. injection Ef as Ef.
  assert (F : find (man_key plug pf) (h_mans (s_h s)) = Some m).
  { apply (find_key (man_key plug pf) (fun m => (mn_plug m, mn_pf m)) (plug, pf)); auto.
    - intros x. unfold man_key. rewrite andb_true_iff, !Z.eqb_eq. split; [intros [<- <-]; reflexivity|intros X; injection X as <- <-; auto].
    - apply (wm_mkey _ _ Wm).
    - split; [apply (find_some _ _ Gm)|congruence]. }
  assert (Eo : mn_obj m = o). { destruct (find_some _ _ Gm) as [_ X]. unfold man_is in X. apply Nat.eqb_eq in X. congruence. }
  destruct (remove_hookman_ok mem (s_k s) o m Hf Gm) as (k' & Er & W' & K & _ & Rm & L).
  assert (Es : step s (ERemoveMan plug pf) = Ok (with_k s k')).
  { cbn [step]. unfold remove_hookman_pf. change (c_h (s_k s)) with (s_h s). rewrite F, Eo, Er. reflexivity. }
  exists (with_k s k'). split; [exact Es|].
  assert (Mo : forall x, manager_of (c_h k') x = if x =? o then None else manager_of (s_h s) x).
  { intros x. specialize (K x). unfold manager_of. change (c_h (s_k s)) with (s_h s) in K.
    destruct (get_man (c_h k') x) as [a|], (get_man (s_h s) x) as [b|], (x =? o); cbn [option_map] in *; try discriminate; auto. injection K as _ K _ _. congruence. }
  split; [exact (eq_trans (Mo o) ltac:(rewrite Nat.eqb_refl; reflexivity))|]. split.
  { intros o' N. refine (eq_trans (Mo o') _). apply Nat.eqb_neq in N. rewrite N. reflexivity. }
  assert (Ei := removed_installed (s_h s) (c_h k') _ Hw (wf_h _ _ W') Rm).
  split; intros sl E a p; refine (eq_trans (Ei sl a p) _).
  - apply filter_none. intros k Hk. destruct (installed_query _ _ _ _ _ Hw Hk) as (e & Q & Ee & _). apply negb_false_iff. apply (doomed_spec _ _ _ _ _ Q).
    destruct (managers_cases _ sl Hw) as [(v & Hv & Ev & Em)|[_ Em]]; [|congruence]. exists v. change (c_h (s_k s)) with (s_h s).
    split; [exact Hv|]. split; [apply in_map; exact Hv|]. split; congruence.
  - apply filter_all. intros k Hk. destruct (installed_query _ _ _ _ _ Hw Hk) as (e & Q & Ee & _). apply negb_true_iff.
    destruct (doomed _ _ _ _) eqn:X; [|reflexivity]. exfalso. apply (doomed_spec _ _ _ _ _ Q) in X. destruct X as (v & Hv & _ & Ev & Em).
    apply E. rewrite <- Ee, <- Ev. change (c_h (s_k s)) with (s_h s) in Hv. rewrite (managers_vfn _ v Hw Hv). exact Em.
Qed.
