(** No hook that stays is forgotten; activations without hooks run none; what
    becomes of recalls; contexts are balanced. *)
From Coq Require Import List Bool Arith ZArith Lia.
From Verif Require Import Base ProtoModel ShModel ShRun ShLists ShInv ShHooks ShAdd ShApi ShHist ShGood ShSpec ShView ShAbs ShRel ShCalls ShMoves ShChange ShFollow ShRefine ShTrace ShLoop ShAhead ShExact.
Import ListNotations.
Local Open Scope nat_scope.

Lemma step_nxt : forall m0 s A e s', (forall a, Z.odd (m0 a) = false) -> CInv m0 s A -> allowed (s_h s) A e -> step s e = Ok s' ->
  (if opens e then S (h_nxt (s_h s)) else h_nxt (s_h s)) <= h_nxt (s_h s').
Proof.
  intros m0 s A e s' Ev C Al E. pose proof (step_refines m0 s A e Ev C Al) as Ag. unfold agrees in Ag. rewrite E in Ag.
  destruct Ag as (x2 & n2 & _ & _ & _ & _ & _ & Hx). exact Hx.
Qed.

(** ** Hooks that stay are run *)
Lemma begin_waits : forall m0 s A e s' x F slot this p post (vp : bool) n, (forall a, Z.odd (m0 a) = false) -> LInv m0 s A -> allowed (s_h s) A e -> step s e = Ok s' ->
  astep (s_h s) (s_h s') A (b_pend (s_b s)) e = Some x -> In (OBegin F slot this p KNormal) (w_obs (as_w x)) ->
  live (s_h s') slot (if vp then 0%Z else this) post n ->
  waits (as_fr x) (h_tr (s_h s')) F slot this post vp n \/ was_run (h_tr (s_h s')) F n.
Proof.
  intros m0 s A e s' x F slot this p post vp n Ev L Al E Ea I' Lv.
  destruct (step_loop m0 s A e s' Ev L Al E) as (x' & new & Ea' & L' & Sn & Ep & Hn & Hnn & _).
  assert (x' = x) by congruence. subst x'. unfold since in Sn.
  destruct (astep_begin _ _ _ _ _ _ _ _ _ _ _ Ea I') as [-> (vo & idx & -> & Es & Hc & Ti)]. rewrite (Hn eq_refl) in Sn.
  cbn [astep] in Ea. rewrite <- Es, Hc, Ti in Ea. injection Ea as <-.
  assert (Lv0 : live (s_h s) slot (if vp then 0%Z else this) post n) by (eapply live_same; [|exact Lv]; apply (rs_vfns _ _ (step_runs s (ECall this vo idx p) s' eq_refl E))).
  rewrite Sn. unfold a_hooked. rewrite <- Es. apply goes_resume; [|now left|constructor].
  apply pre_goes; auto; [apply (cinv_wh _ _ _ (li_c _ _ _ L))|split; reflexivity| |reflexivity].
  intros ->. apply (live_present _ _ _ _ _ Lv0).
Qed.
Lemma waits_run : forall m0 F slot this post (vp : bool) n s A l s' A', (forall a, Z.odd (m0 a) = false) ->
  during (fun q => live (s_h q) slot (if vp then 0%Z else this) post n) s A l s' A' -> LInv m0 s A ->
  waits A (h_tr (s_h s)) F slot this post vp n \/ was_run (h_tr (s_h s)) F n ->
  waits A' (h_tr (s_h s')) F slot this post vp n \/ was_run (h_tr (s_h s')) F n.
Proof.
  intros m0 F slot this post vp n s A l s' A' Ev D. induction D as [|s A e s1 x l s' A' P Al E Ea D IH]; intros L C; [auto|].
  destruct (step_loop m0 s A e s1 Ev L Al E) as (x' & new & Ea' & L' & Sn & _). assert (x' = x) by congruence. subst x'.
  apply IH; [exact L'|]. destruct C as [C|C].
  - apply (waits_step m0 s A e s1 F slot this post vp n Ev L Al E x Ea); [|exact C]. exact (during_start _ _ _ _ _ _ D).
  - right. unfold since in Sn. rewrite Sn. now apply was_run_more.
Qed.
Lemma waits_in : forall A t F slot this post vp n, waits A t F slot this post vp n -> In F (map af_id A).
Proof.
  intros A t F slot this post vp n (N & f & B & a & [-> _ _ _ _ C _]). rewrite map_app. apply in_or_app. right. apply chain_in. exact C.
Qed.

(** ** The shape of the stack *)
Definition hookb (f : aframe) : bool := match af_hook f with Some _ => true | None => false end.
Notation sg := (nat * after * bool * bool)%type.
Definition sig (f : aframe) : sg := (af_id f, af_after f, hookb f, if hookb f then false else af_ign f).
Definition sid (x : sg) : nat := fst (fst (fst x)).
Fixpoint take_sig (l : list sg) : option (list sg) :=
  match l with
  | [] => None
  | (i, a, k, g) :: l' =>
      if k : bool then None else if g : bool then Some ((i, a, k, false) :: l')
      else match take_sig l' with Some r => Some ((i, a, k, g) :: r) | None => None end
  end.
Lemma take_sig_map : forall A, take_sig (map sig A) = option_map (map sig) (take_ign A).
Proof.
  induction A as [|f A IH]; [reflexivity|]. cbn [map take_ign]. unfold sig at 1, hookb. cbn [take_sig]. destruct (af_hook f) eqn:E; [reflexivity|].
  destruct (af_ign f) eqn:Eg; [reflexivity|]. rewrite IH. destruct (take_ign A); [|reflexivity]. cbn [option_map map]. unfold sig at 2, hookb. now rewrite E, Eg.
Qed.
Definition used (S S' : list sg) : Prop := S' = S \/ take_sig S = Some S'.
Lemma sid_sig : forall A, map sid (map sig A) = map af_id A.
Proof. intros A. rewrite map_map. reflexivity. Qed.
Lemma used_ids : forall S S', used S S' -> map sid S' = map sid S.
Proof.
  intros S S' [->|E]; [reflexivity|]. revert S' E. induction S as [|[[[i a] k] g] S IH]; intros S' E; cbn [take_sig] in E; [discriminate|].
  destruct k; [discriminate|]. destruct g; [injection E as <-; reflexivity|]. destruct (take_sig S) as [r|]; [|discriminate]. injection E as <-.
  cbn [map]. rewrite (IH r eq_refl). reflexivity.
Qed.
Lemma reset_shape : forall A w, used (map sig A) (map sig (as_fr (a_reset A w))).
Proof.
  intros A w. unfold a_reset. destruct (take_ign A) as [r|] eqn:E; [right|now left]. cbn [as_fr]. rewrite take_sig_map, E. reflexivity.
Qed.
Lemma unwind_shape : forall h A aft z w, exists P S2, P ++ S2 = map sig A /\ used S2 (map sig (as_fr (a_unwind h aft z A w))).
Proof.
  intros h A. induction A as [|f A IH]; intros aft z w; destruct aft; cbn [a_unwind].
  - exists [], []. split; [reflexivity|now left].
  - exists [], []. split; [reflexivity|now left].
  - exists [], []. split; [reflexivity|now left].
  - exists [], (map sig (f :: A)). split; [reflexivity|now left].
  - exists [], (map sig (f :: A)). split; [reflexivity|apply reset_shape].
  - destruct (af_hook f) as [a|] eqn:Eh; [|exists [], (map sig (f :: A)); split; [reflexivity|now left]].
    destruct (a_done _ _ _ _ _ _) as [a' w'|z' w'].
    + exists [], (map sig (f :: A)). split; [reflexivity|]. left. cbn [as_fr map]. unfold sig at 1 3, hookb. cbn [af_id af_after af_hook]. rewrite Eh. reflexivity.
    + destruct (IH (af_after f) z' w') as (P & S2 & E & U). exists (sig f :: P), S2. split; [cbn [app map]; f_equal; exact E|exact U].
Qed.
Lemma resume_shape : forall h o F aft A, exists P S2, P ++ S2 = (F, aft, true, false) :: map sig A /\ used S2 (map sig (as_fr (a_resume h o F aft A))).
Proof.
  intros h [a w|z w] F aft A; cbn [a_resume].
  - exists [], ((F, aft, true, false) :: map sig A). split; [reflexivity|now left].
  - destruct (unwind_shape h A aft z w) as (P & S2 & E & U). exists ((F, aft, true, false) :: P), S2. split; [cbn [app]; f_equal; exact E|exact U].
Qed.

(** A step pushes at most one frame and pops some; requests to ignore hooks may
    be used up. *)
Definition pushed (h : hs) (e : event) (S1 S : list sg) : Prop :=
  S = S1 \/ exists aft k g, opens e = true /\ S = (h_nxt h, aft, k, g) :: S1 /\
    match e with ECall _ _ _ _ => aft = APlain | ESHCall _ _ _ _ => aft = AReset | _ => aft = ARecall /\ k = true end.
Lemma astep_shape : forall h h' A p e x, astep h h' A p e = Some x -> exists S1 S P S2,
  used (map sig A) S1 /\ pushed h e S1 S /\ P ++ S2 = S /\ used S2 (map sig (as_fr x)).
Proof.
  intros h h' A p e x E.
  assert (Api : as_fr x = map (refresh h') A -> exists S1 S P S2, used (map sig A) S1 /\ pushed h e S1 S /\ P ++ S2 = S /\ used S2 (map sig (as_fr x))).
  { intros ->. exists (map sig A), (map sig A), [], (map sig A). split; [now left|]. split; [now left|]. split; [reflexivity|]. left.
    rewrite map_map. apply map_ext. intros f. unfold sig, hookb, refresh. cbn [af_id af_after af_hook af_ign]. now destruct (af_hook f). }
  assert (Push : forall S1 aft k g S2, opens e = true -> match e with ECall _ _ _ _ => aft = APlain | ESHCall _ _ _ _ => aft = AReset | _ => aft = ARecall /\ k = true end -> used (map sig A) S1 ->
     (exists P S2', P ++ S2' = (h_nxt h, aft, k, g) :: S1 /\ used S2' S2) ->
     exists S1 S P S2', used (map sig A) S1 /\ pushed h e S1 S /\ P ++ S2' = S /\ used S2' S2).
  { intros S1 aft k g S2 O Ma U (P & S2' & E1 & E2). exists S1, ((h_nxt h, aft, k, g) :: S1), P, S2'. split; [exact U|]. split; [right; exists aft, k, g; auto|auto]. }
  destruct e as [th vo idx q|th vo idx q|z|m|res val offs vo idx q| | | | | | | | | |]; cbn [astep] in E; try (injection E as <-; apply Api; reflexivity).
  - injection E as <-. destruct (is_hookcode _).
    2:{ eapply (Push _ APlain false false); [reflexivity|reflexivity|now left|]. exists []. eexists. split; [reflexivity|]. left. reflexivity. }
    destruct (take_ign A) as [A1|] eqn:Et.
    + eapply (Push (map sig A1) APlain true false); [reflexivity|reflexivity|right; rewrite take_sig_map, Et; reflexivity|]. apply resume_shape.
    + eapply (Push _ APlain true false); [reflexivity|reflexivity|now left|]. apply resume_shape.
  - injection E as <-. destruct (is_hookcode _).
    2:{ eapply (Push _ AReset false true); [reflexivity|reflexivity|now left|]. exists []. eexists. split; [reflexivity|]. left. reflexivity. }
    eapply (Push _ AReset true false); [reflexivity|reflexivity|now left|]. apply resume_shape.
  - destruct A as [|f A]; [discriminate|].
    assert (Stay : forall P S2 S3, P ++ S2 = map sig (f :: A) -> used S2 S3 -> exists S1 S P S2', used (map sig (f :: A)) S1 /\ pushed h (EReturn z) S1 S /\ P ++ S2' = S /\ used S2' S3).
    { intros P S2 S3 E1 U. exists (map sig (f :: A)), (map sig (f :: A)), P, S2. split; [now left|]. split; [now left|auto]. }
    destruct (af_hook f) as [a|] eqn:Eh.
    + assert (Ef : map sig (f :: A) = (af_id f, af_after f, true, false) :: map sig A) by (cbn [map]; unfold sig at 1, hookb; now rewrite Eh).
      destruct (a_run a); injection E as <-.
      * match goal with |- context [a_resume ?a1 ?a2 ?a3 ?a4 ?a5] => destruct (resume_shape a1 a2 a3 a4 a5) as (P & S2 & E1 & U) end. eapply Stay; [rewrite Ef; exact E1|exact U].
      * match goal with |- context [a_resume ?a1 ?a2 ?a3 ?a4 ?a5] => destruct (resume_shape a1 a2 a3 a4 a5) as (P & S2 & E1 & U) end. eapply Stay; [rewrite Ef; exact E1|exact U].
    + injection E as <-. destruct (af_ign f).
      * destruct (af_after f); cbn [as_fr].
        -- apply (Stay [] (map sig (f :: A))); [reflexivity|now left].
        -- apply (Stay [sig f] (map sig A)); [reflexivity|now left].
        -- apply (Stay [] (map sig (f :: A))); [reflexivity|now left].
      * match goal with |- context [a_unwind ?a1 ?a2 ?a3 ?a4 ?a5] => destruct (unwind_shape a1 a4 a2 a3 a5) as (P & S2 & E1 & U) end.
        apply (Stay (sig f :: P) S2); [cbn [app map]; f_equal; exact E1|exact U].
  - destruct A as [|f A]; [discriminate|]. destruct (af_hook f) as [a|] eqn:Eh; [|discriminate]. destruct (a_run a); [|discriminate]. injection E as <-.
    exists (map sig (f :: A)), (map sig (f :: A)), [], (map sig (f :: A)). split; [now left|]. split; [now left|]. split; [reflexivity|]. left. cbn [as_fr map].
    f_equal. unfold sig, hookb. cbn [af_id af_after af_hook]. now rewrite Eh.
  - destruct A as [|f A]; [discriminate|]. destruct (af_hook f) as [a|] eqn:Eh; [|discriminate]. destruct (a_run a) as [[vp n]|]; [|discriminate]. injection E as <-.
    unfold a_recall. eapply (Push _ ARecall true false); [reflexivity|auto|now left|].
    match goal with |- context [a_resume ?a1 ?a2 ?a3 ?a4 ?a5] => destruct (resume_shape a1 a2 a3 a4 a5) as (P & S2 & E1 & U) end.
    exists P, S2. split; [|exact U]. rewrite E1. f_equal. cbn [map]. f_equal. unfold sig, hookb. cbn [af_id af_after af_hook]. now rewrite Eh.
Qed.

Lemma used_fst : forall S S', used S S' -> map fst S' = map fst S.
Proof.
  intros S S' [->|E]; [reflexivity|]. revert S' E. induction S as [|[[[i a] k] g] S IH]; intros S' E; cbn [take_sig] in E; [discriminate|].
  destruct k; [discriminate|]. destruct g; [injection E as <-; reflexivity|]. destruct (take_sig S) as [r|]; [|discriminate]. injection E as <-.
  cbn [map]. rewrite (IH r eq_refl). reflexivity.
Qed.
Lemma used_below : forall N S0 S1, take_sig S0 = None -> used (N ++ S0) S1 -> exists N1, S1 = N1 ++ S0 /\ length N1 = length N.
Proof.
  intros N S0 S1 T [->|E]; [exists N; auto|]. revert S1 E. induction N as [|[[[i a] k] g] N IH]; intros S1 E; cbn [app take_sig] in E; [congruence|].
  destruct k; [discriminate|]. destruct g; [injection E as <-; eexists (_ :: N); split; reflexivity|].
  destruct (take_sig (N ++ S0)) as [r|]; [|discriminate]. injection E as <-. destruct (IH r eq_refl) as (N1 & -> & L). exists ((i, a, false, false) :: N1).
  split; [reflexivity|cbn [length]; lia].
Qed.
Lemma split_app : forall (X : Type) (P S N B : list X), P ++ S = N ++ B -> (exists M, S = M ++ B) \/ exists x Q, B = x :: Q ++ S.
Proof.
  intros X P S N. revert P. induction N as [|y N IH]; intros P B E.
  - cbn [app] in E. destruct P as [|x P]; [left; exists []; exact E|]. right. cbn [app] in E. subst B. eauto.
  - destruct P as [|x P].
    + left. exists (y :: N). exact E.
    + cbn [app] in E. injection E as _ E. apply (IH P B E).
Qed.

(** ** Contexts are balanced *)
(** Whatever happens while the frames [S0] are on the stack leaves them alone. *)
Definition based (S0 : list sg) (n : nat) (A : list aframe) : Prop :=
  (exists N, map sig A = N ++ S0) \/ exists g, In g (map sid S0) /\ ~ In g (map af_id A).
Lemma based_step : forall m0 s A e s' x S0, (forall a, Z.odd (m0 a) = false) -> CInv m0 s A -> allowed (s_h s) A e -> step s e = Ok s' ->
  astep (s_h s) (s_h s') A (b_pend (s_b s)) e = Some x -> take_sig S0 = None -> (forall g, In g (map sid S0) -> g < h_nxt (s_h s)) ->
  based S0 (h_nxt (s_h s)) A -> based S0 (h_nxt (s_h s')) (as_fr x).
Proof.
  intros m0 s A e s' x S0 Ev C Al E Ea T Fr [(N & En)|(g & Ig & Ng)].
  - destruct (astep_shape _ _ _ _ _ _ Ea) as (S1 & S & P & S2 & U1 & Pu & Es & U2). rewrite En in U1.
    destruct (used_below N S0 S1 T U1) as (N1 & -> & _).
    assert (Es' : exists N2, P ++ S2 = N2 ++ S0).
    { destruct Pu as [->|(aft & k & gg & _ & -> & _)]; [eauto|]. exists ((h_nxt (s_h s), aft, k, gg) :: N1). exact Es. }
    destruct Es' as (N2 & Es').
    destruct (split_app _ _ _ _ _ Es') as [(M & EM)|(y & Q & EQ)].
    + left. subst S2. destruct (used_below M S0 _ T U2) as (N3 & E3 & _). eauto.
    + right. exists (sid y). split; [rewrite EQ; now left|]. rewrite <- sid_sig, (used_ids _ _ U2). intros I'.
      assert (ND : NoDup (map sid (map sig A))) by (rewrite sid_sig, (cinv_ids _ _ _ C); apply (ci_nd _ _ _ C)).
      rewrite En, map_app, EQ in ND. cbn [map] in ND. apply NoDup_remove_2 in ND. apply ND. apply in_or_app. right. rewrite map_app. apply in_or_app. now right.
  - right. exists g. split; [exact Ig|]. intros H. apply (astep_ids _ _ _ _ _ _ Ea) in H. destruct H as [H|H]; [|contradiction].
    specialize (Fr g Ig). lia.
Qed.
Lemma based_run : forall m0 S0 s A l s' A', (forall a, Z.odd (m0 a) = false) -> take_sig S0 = None -> tracks s A l s' A' -> CInv m0 s A ->
  (forall g, In g (map sid S0) -> g < h_nxt (s_h s)) -> based S0 (h_nxt (s_h s)) A -> based S0 (h_nxt (s_h s')) A'.
Proof.
  intros m0 S0 s A l s' A' Ev T Tr. induction Tr as [|s A e s1 x l s' A' Al E Ea Tr IH]; intros C Fr B; [exact B|].
  pose proof (step_refines m0 s A e Ev C Al) as Ag. unfold agrees in Ag. rewrite E in Ag. destruct Ag as (x2 & n2 & Ea2 & C' & _ & _ & _ & Hx).
  assert (x2 = x) by congruence. subst x2. apply IH.
  - exact C'.
  - intros g Ig. specialize (Fr g Ig). destruct (opens e); lia.
  - eapply based_step with (A := A) (e := e) (s := s); eauto.
Qed.
Lemma depth_sig : forall A B, map sig A = map sig B -> depth A = depth B.
Proof.
  induction A as [|f A IH]; intros [|g B] E; try discriminate; [reflexivity|]. cbn [map] in E. injection E as E1 E2 E3 E4 E5. cbn [depth]. rewrite (IH B E5). f_equal.
  unfold hookb in E3, E4. destruct (af_hook f), (af_hook g); try discriminate; [reflexivity|]. now rewrite E4.
Qed.
Theorem balanced : forall m0 s A l s' A', (forall a, Z.odd (m0 a) = false) -> CInv m0 s A -> take_ign A = None -> tracks s A l s' A' ->
  map af_id A' = map af_id A -> map sig A' = map sig A.
Proof.
  intros m0 s A l s' A' Ev C T Tr Ei.
  assert (B : based (map sig A) (h_nxt (s_h s')) A').
  { eapply based_run; eauto.
    - rewrite take_sig_map, T. reflexivity.
    - intros g Hg. rewrite sid_sig, (cinv_ids _ _ _ C) in Hg. apply (ci_fresh _ _ _ C g Hg).
    - left. exists []. reflexivity. }
  destruct B as [(N & E)|(g & I1 & I2)].
  - assert (Ln : length A' = length A) by (rewrite <- (map_length af_id A'), Ei, map_length; reflexivity).
    pose proof (f_equal (@length sg) E) as El. rewrite app_length, !map_length in El. destruct N; [exact E|cbn [length] in El; lia].
  - rewrite sid_sig in I1. rewrite Ei in I2. contradiction.
Qed.

(** ** Which calls are hook calls; recalls *)
Definition new_frame_ok (n : nat) (A : list aframe) (l : list obs) : Prop :=
  forall f, In f A -> af_id f = n -> hookb f = true <-> In n (flat_map begins l).
Lemma emits_begins : forall L w w', emits L w w' -> flat_map begins (w_obs w') = flat_map begins (w_obs w).
Proof.
  intros L w w' (l & E & Fl). rewrite E, flat_map_app. assert (flat_map begins l = []); [|now rewrite H].
  clear E. induction Fl as [|o l [H _] Fl IH]; [reflexivity|]. cbn [flat_map]. now rewrite H.
Qed.
Lemma resume_new : forall h o n aft A w, ~ In n (map af_id A) -> emits [n] w (out_w o) -> In n (flat_map begins (w_obs w)) ->
  new_frame_ok n (as_fr (a_resume h o n aft A)) (w_obs (as_w (a_resume h o n aft A))).
Proof.
  intros h o n aft A w NI Em I' f Hf En.
  assert (Eb : flat_map begins (w_obs (as_w (a_resume h o n aft A))) = flat_map begins (w_obs w)) by (eapply emits_begins, emits_resume, Em).
  rewrite Eb. split; [auto|]. intros _. destruct o as [a w'|z w']; cbn [a_resume as_fr] in Hf.
  - destruct Hf as [<-|Hf]; [reflexivity|]. exfalso. apply NI. rewrite <- En. now apply in_map.
  - exfalso. apply NI. rewrite <- En. eapply unwind_ids. apply in_map. exact Hf.
Qed.
Lemma astep_new : forall h h' A p e x, ~ In (h_nxt h) (map af_id A) -> astep h h' A p e = Some x -> new_frame_ok (h_nxt h) (as_fr x) (w_obs (as_w x)).
Proof.
  intros h h' A p e x NI E.
  assert (Old : incl (map af_id (as_fr x)) (map af_id A) -> new_frame_ok (h_nxt h) (as_fr x) (w_obs (as_w x))).
  { intros Inc f Hf En. exfalso. apply NI. apply Inc. rewrite <- En. now apply in_map. }
  assert (Nat0 : forall th vo idx q aft g w, w_obs w = [] -> new_frame_ok (h_nxt h) (as_fr (a_native h th vo idx q aft g A w)) (w_obs (as_w (a_native h th vo idx q aft g A w)))).
  { intros th vo idx q aft g w Ew f Hf En. cbn [a_native as_fr as_w wemit w_obs] in *. rewrite Ew. cbn. destruct Hf as [<-|Hf]; [cbn; intuition discriminate|].
    exfalso. apply NI. rewrite <- En. now apply in_map. }
  assert (Api : as_fr x = map (refresh h') A -> new_frame_ok (h_nxt h) (as_fr x) (w_obs (as_w x))).
  { intros Ef. apply Old. rewrite Ef, map_map. apply incl_refl. }
  destruct e as [th vo idx q|th vo idx q|z|m|res val offs vo idx q| | | | | | | | | |]; cbn [astep] in E; try (injection E as <-; apply Api; reflexivity).
  - injection E as <-. destruct (is_hookcode _); [|now apply Nat0]. destruct (take_ign A) as [A1|] eqn:Et.
    + eapply resume_new; [rewrite (take_ign_ids _ _ Et); exact NI|apply emits_pre|now left].
    + eapply resume_new; [exact NI|apply emits_pre|now left].
  - injection E as <-. destruct (is_hookcode _); [|now apply Nat0]. eapply resume_new; [exact NI|apply emits_pre|now left].
  - apply Old. destruct A as [|f A]; [discriminate|]. cbn [map]. destruct (af_hook f) as [a|].
    + destruct (a_run a); injection E as <-; apply resume_ids.
    + injection E as <-. destruct (af_ign f); [destruct (af_after f)|]; cbn [as_fr map]; try apply incl_refl; apply incl_tl; try apply incl_refl. apply unwind_ids.
  - apply Old. destruct A as [|f A]; [discriminate|]. destruct (af_hook f) as [a|]; [|discriminate]. destruct (a_run a); [|discriminate]. injection E as <-. apply incl_refl.
  - destruct A as [|f A]; [discriminate|]. destruct (af_hook f) as [a|]; [|discriminate]. destruct (a_run a) as [[vp n]|]; [|discriminate]. injection E as <-.
    unfold a_recall. eapply resume_new; [exact NI| |]. 2:{ instantiate (1 := wemit (OBegin (h_nxt h) (a_slot a) (a_this a) q (KRecall (af_id f))) (wemit (ORecall (af_id f) n res val) (World p []))). now left. }
    destruct (a_phase a); [apply emits_pre|apply emits_pre|apply emits_begin_post].
Qed.

Record SInv (s : state) (A : list aframe) : Prop := {
  si_hook : forall f, In f A -> hookb f = true <-> In (af_id f) (flat_map begins (h_tr (s_h s)));
  si_rec : forall G F sl th p, In (OBegin G sl th p (KRecall F)) (h_tr (s_h s)) -> In G (map af_id A) ->
    exists N aft B, map fst (map sig A) = N ++ (G, ARecall, true) :: (F, aft, true) :: B }.
Lemma SInv_init : forall pfs mem vt, SInv (init pfs mem vt) [].
Proof. intros. constructor; [intros f []|intros G F sl th p []]. Qed.
Lemma SInv_step : forall m0 s A e s' x, (forall a, Z.odd (m0 a) = false) -> LInv m0 s A -> allowed (s_h s) A e -> step s e = Ok s' ->
  astep (s_h s) (s_h s') A (b_pend (s_b s)) e = Some x -> SInv s A -> SInv s' (as_fr x).
Proof.
  intros m0 s A e s' x Ev L Al E Ea [S1 S2].
  destruct (step_loop m0 s A e s' Ev L Al E) as (x' & new & Ea' & L' & Sn & Ep & Hn & Hnn & _).
  assert (x' = x) by congruence. subst x'. unfold since in Sn.
  destruct (astep_shape _ _ _ _ _ _ Ea) as (T1 & T & P & T2 & U1 & Pu & Es & U2).
  assert (NI : ~ In (h_nxt (s_h s)) (map af_id A)).
  { rewrite (cinv_ids _ _ _ (li_c _ _ _ L)). intros H. apply (ci_fresh _ _ _ (li_c _ _ _ L)) in H. lia. }
  assert (Fids : map af_id A = map (fun x => fst (fst x)) (map fst (map sig A))) by (rewrite !map_map; reflexivity).
  assert (Fids' : map af_id (as_fr x) = map (fun x => fst (fst x)) (map fst (map sig (as_fr x)))) by (rewrite !map_map; reflexivity).
  pose proof (used_fst _ _ U1) as V1. pose proof (used_fst _ _ U2) as V2.
  assert (Obs : forall o, In o new -> In o (w_obs (as_w x)) \/ begins o = []).
  { intros o Io. destruct (runs e); [left; now rewrite <- (Hn eq_refl)|right]. specialize (Hnn eq_refl). rewrite Forall_forall in Hnn. apply (api_silent o (Hnn o Io)). }
  assert (Old : forall G, In G (map af_id A) -> In G (flat_map begins new) -> False).
  { intros G I1 I2. apply in_flat_map in I2. destruct I2 as (o & Io & Ho). destruct (Obs o Io) as [Io'|Eo]; [|now rewrite Eo in Ho].
    destruct (astep_obs _ _ _ _ _ _ Ea) as [_ [X|[_ X]]].
    - assert (In G (flat_map begins (w_obs (as_w x)))) by (apply in_flat_map; eauto). rewrite X in H. contradiction.
    - assert (In G (flat_map begins (w_obs (as_w x)))) by (apply in_flat_map; eauto). rewrite X in H. destruct H as [<-|[]]. contradiction. }
  constructor.
  - intros f Hf. rewrite Sn, flat_map_app, in_app_iff.
    destruct (Nat.eq_dec (af_id f) (h_nxt (s_h s))) as [Ei|Ni].
    + rewrite Ei. rewrite (astep_new _ _ _ _ _ _ NI Ea f Hf Ei).
      assert (Hold : ~ In (h_nxt (s_h s)) (flat_map begins (h_tr (s_h s)))).
      { intros H. apply begins_in in H. destruct H as (o & Io & Eo). pose proof (li_fid _ _ _ L o _ Io Eo). lia. }
      destruct (runs e) eqn:Hr; [rewrite (Hn eq_refl); tauto|]. split; [|intros [H|H]; [exfalso|contradiction]].
      * intros H. exfalso. destruct (astep_obs _ _ _ _ _ _ Ea) as [_ [X|[X _]]]; [now rewrite X in H|destruct e; discriminate].
      * apply in_flat_map in H. destruct H as (o & Io & Ho). specialize (Hnn eq_refl). rewrite Forall_forall in Hnn. destruct (api_silent o (Hnn o Io)) as (_ & _ & X). now rewrite X in Ho.
    + (* an old frame *)
      assert (If : In (fst (sig f)) (map fst (map sig (as_fr x)))) by (now apply in_map, in_map).
      rewrite V2 in If. assert (If' : In (fst (sig f)) (map fst T)) by (rewrite <- Es, map_app; apply in_or_app; now right).
      assert (IA : In (fst (sig f)) (map fst (map sig A))).
      { rewrite <- V1. destruct Pu as [->|(aft & k & g & _ & -> & _)]; [exact If'|]. destruct If' as [X|X]; [|exact X]. injection X as X _. congruence. }
      apply in_map_iff in IA. destruct IA as (y & Ey & Iy). apply in_map_iff in Iy. destruct Iy as (f0 & E0 & I0). subst y.
      injection Ey as Y1 Y2 Y3. rewrite <- Y1, <- Y3, (S1 f0 I0). split; [now right|]. intros [H|H]; [|exact H]. exfalso. apply (Old (af_id f0)); [now apply in_map|exact H].
  - intros G F sl th p I' IG. rewrite Sn in I'. apply in_app_or in I'.
    assert (Suffix : forall N aft B, map fst T = N ++ (G, ARecall, true) :: (F, aft, true) :: B -> NoDup (map (fun x => fst (fst x)) (map fst T)) ->
       exists N' aft' B', map fst (map sig (as_fr x)) = N' ++ (G, ARecall, true) :: (F, aft', true) :: B').
    { intros N aft B ET ND. assert (EP : map fst P ++ map fst T2 = N ++ (G, ARecall, true) :: (F, aft, true) :: B) by (rewrite <- map_app, Es; exact ET).
      rewrite V2. destruct (split_app _ _ _ _ _ EP) as [(M & EM)|(y & Q & EQ)]; [exists M, aft, B; exact EM|].
      exfalso. injection EQ as <- EQ. rewrite Fids', V2 in IG.
      rewrite ET, map_app in ND. cbn [map fst] in ND. apply NoDup_remove_2 in ND. apply ND. apply in_or_app. right.
      change (F :: map (fun x0 => fst (fst x0)) B) with (map (fun x0 : nat * after * bool => fst (fst x0)) ((F, aft, true) :: B)).
      rewrite EQ, map_app. apply in_or_app. now right. }
    assert (ND : NoDup (map (fun x => fst (fst x)) (map fst T))).
    { assert (ND0 : NoDup (map (fun x => fst (fst x)) (map fst T1))) by (rewrite V1, <- Fids, (cinv_ids _ _ _ (li_c _ _ _ L)); apply (ci_nd _ _ _ (li_c _ _ _ L))).
      destruct Pu as [->|(aft & k & g & _ & -> & _)]; [exact ND0|]. cbn [map fst]. constructor; [|exact ND0]. rewrite V1, <- Fids. exact NI. }
    destruct I' as [I'|I'].
    + (* the recall that begins now *)
      assert (Io : In (OBegin G sl th p (KRecall F)) (w_obs (as_w x))) by (destruct (Obs _ I'); [assumption|discriminate]).
      destruct (astep_begin _ _ _ _ _ _ _ _ _ _ _ Ea Io) as [-> (res & val & offs & vo & idx & f & a & B & -> & -> & Ef & Eh & _)].
      assert (Hd : fst (sig f) = (F, af_after f, true)) by (unfold sig, hookb; cbn [fst]; rewrite Eh, Ef; reflexivity).
      destruct Pu as [->|(aft & k & g & _ & -> & Ma)].
      * exfalso. apply NI. rewrite Fids', V2 in IG. rewrite Fids, <- V1. rewrite <- Es, !map_app. apply in_or_app. now right.
      * destruct Ma as [-> ->]. cbn [map] in V1. eapply (Suffix [] (af_after f) (map fst (map sig B))); [|exact ND]. cbn [map app fst]. rewrite V1, Hd. reflexivity.
    + assert (IGA : In G (map af_id A)).
      { rewrite Fids', V2 in IG. assert (In G (map (fun x => fst (fst x)) (map fst T))) by (rewrite <- Es, !map_app; apply in_or_app; now right).
        destruct Pu as [->|(aft & k & g & _ & -> & _)]; [rewrite Fids, <- V1; exact H|]. destruct H as [H|H]; [|rewrite Fids, <- V1; exact H].
        exfalso. cbn in H. pose proof (li_fid _ _ _ L _ G I' eq_refl). lia. }
      destruct (S2 G F sl th p I' IGA) as (N & aft & B & EB). rewrite <- V1 in EB.
      destruct Pu as [->|(aft0 & k & g & _ & -> & _)]; [eapply Suffix; eauto|]. apply (Suffix ((h_nxt (s_h s), aft0, k) :: N) aft B); [|exact ND]. cbn [map app fst]. now rewrite EB.
Qed.
Lemma SInv_run : forall m0 s A l s' A', (forall a, Z.odd (m0 a) = false) -> tracks s A l s' A' -> LInv m0 s A -> SInv s A -> SInv s' A'.
Proof.
  intros m0 s A l s' A' Ev Tr. induction Tr as [|s A e s1 x l s' A' Al E Ea Tr IH]; intros L S; [exact S|].
  destruct (step_loop m0 s A e s1 Ev L Al E) as (x' & new & Ea' & L' & _). assert (x' = x) by congruence. subst x'.
  apply IH; [exact L'|]. eapply SInv_step with (s := s) (A := A) (e := e); eauto.
Qed.

(** ** Hooks behind a running one *)
Lemma frame_of : forall m0 s A F, LInv m0 s A -> SInv s A -> In F (map af_id A) -> In F (flat_map begins (h_tr (s_h s))) ->
  exists N f B a susp, A = N ++ f :: B /\ af_id f = F /\ af_hook f = Some a /\ frame_ok m0 (s_h s) (h_tr (s_h s)) F susp a.
Proof.
  intros m0 s A F L S I1 I2. apply in_map_iff in I1. destruct I1 as (f & Ef & If).
  pose proof (proj2 (si_hook _ _ S f If)) as Hk. rewrite Ef in Hk. specialize (Hk I2). unfold hookb in Hk. destruct (af_hook f) as [a|] eqn:Eh; [|discriminate].
  apply in_split in If. destruct If as (N & B & ->). exists N, f, B, a.
  assert (G : forall N susp, stack_ok m0 (s_h s) (h_tr (s_h s)) susp (N ++ f :: B) -> exists su, frame_ok m0 (s_h s) (h_tr (s_h s)) F su a).
  { clear L S N. induction N as [|g N IH]; intros susp St; cbn [app stack_ok] in St.
    - rewrite Eh, Ef in St. exists susp. apply St.
    - destruct St as [_ St]. eapply IH; eauto. }
  destruct (G N false (li_st _ _ _ L)) as (su & Fo). exists su. auto.
Qed.
Lemma running_ahead : forall m0 s A F n0 n adj k0, LInv m0 s A -> SInv s A -> In F (map af_id A) -> In F (flat_map begins (h_tr (s_h s))) ->
  let v := see (h_tr (s_h s)) F in
  vw_rec v = false -> in_loop v -> hd_error (vw_ran v) = Some n0 ->
  In k0 (installed (s_h s) (vw_slot v) adj (vw_post v)) -> hk_nid k0 = n0 -> n0 < n ->
  exists vp : bool, adj = (if vp then 0%Z else vw_this v) /\
    waits A (h_tr (s_h s)) F (vw_slot v) (vw_this v) (vw_post v) vp n.
Proof.
  intros m0 s A F n0 n adj k0 L S I1 I2 v Hr Hl Hn Ik Ek Lt.
  destruct (frame_of m0 s A F L S I1 I2) as (N & f & B & a & susp & -> & Ef & Eh & [Ba P]).
  assert (Hc : exists r, a_run a = Some r /\ cur (s_h s) (h_tr (s_h s)) F a (vw_post v) (a_run a) /\
                 match a_phase a with PPre => vw_post v = false | POrig => False | PPost => vw_post v = true end).
  { unfold phase_ok in P. fold v in P. destruct (a_phase a).
    - destruct P as (P1 & P2 & P3 & _). destruct (a_run a) as [r|]; [|congruence]. exists r. pose proof (c_post _ _ _ _ _ _ P2) as Cp. fold v in Cp. rewrite Cp. auto.
    - destruct P as (_ & P1 & P2 & _). destruct Hl as [Hl|Hl]; congruence.
    - destruct P as (P1 & P2 & _). destruct (a_run a) as [r|]; [|congruence]. exists r. pose proof (c_post _ _ _ _ _ _ P2) as Cp. fold v in Cp. rewrite Cp. auto. }
  destruct Hc as ([vp n1] & Er & C & Hp). rewrite Er in C.
  assert (n1 = n0). { pose proof (c_hd _ _ _ _ _ _ C vp n1 eq_refl) as H. fold v in H. congruence. } subst n1.
  pose proof (b_slot _ _ _ _ _ Ba) as B1. pose proof (b_this _ _ _ _ _ Ba) as B2. fold v in B1, B2.
  destruct (c_at _ _ _ _ _ _ C k0 vp n0 _ _ _ eq_refl Ik Ek) as (_ & Ea & _). exists vp. split; [rewrite Ea; now rewrite B2|].
  assert (Ik' : In k0 (installed (s_h s) (a_slot a) (if vp then 0%Z else a_this a) (vw_post v))) by (rewrite <- Ea, <- B1; exact Ik).
  destruct (c_seen _ _ _ _ _ _ C k0 vp n0 eq_refl Ik' Ek Hr) as [Al Se].
  exists N, f, B, a. constructor; auto.
  - split; [exact Al|]. split; [exact Se|]. rewrite Er. destruct (a_phase a); try contradiction; rewrite Hp; cbn [unpassed]; destruct vp; exact Lt.
  - now left.
  - rewrite Ef. constructor.
Qed.

(** ** The end of a recall *)
Fixpoint rec_ready (aft : after) (A : list aframe) : Prop :=
  match aft with
  | ARecall =>
      match A with
      | f :: A' => match af_hook f with Some a => a_alive a = false /\ a_run a <> None | None => False end /\ rec_ready (af_after f) A'
      | [] => False
      end
  | _ => True
  end.
Lemma rec_plain : forall aft A, aft <> ARecall -> rec_ready aft A.
Proof. intros [] [|f A] N; cbn [rec_ready]; auto; congruence. Qed.
Lemma stack_ready : forall m0 h t A aft, stack_ok m0 h t (is_rec aft) A -> rec_ready aft A.
Proof.
  intros m0 h t A. induction A as [|f A IH]; intros aft S; destruct aft; cbn [is_rec stack_ok rec_ready] in *; auto; try discriminate.
  destruct (af_hook f) as [a|]; [|destruct S; discriminate]. destruct S as [[[B P] R] S]. split; [|now apply IH].
  split; [|now apply R]. apply (b_rec _ _ _ _ _ B). now apply (b_susp _ _ _ _ _ B).
Qed.
Lemma next_dead' : forall h a post from, a_alive a = false -> next h a post from = None.
Proof. intros h a post from E. unfold next, todo. rewrite E. reflexivity. Qed.
Definition is_end (o : obs) : bool := match o with OEnd _ _ => true | _ => false end.
Definition ends (w : world) : list obs := filter is_end (w_obs w).
Lemma close_ends : forall d w, ends (close d w) = ends w.
Proof.
  intros d w. destruct (close_obs d w) as (l & E & Fl). unfold ends. rewrite E, filter_app.
  assert (filter is_end l = []); [|now rewrite H]. clear E. induction Fl as [|o l (p & y & ->) Fl IH]; [reflexivity|exact IH].
Qed.
Lemma done_recall : forall h F d a z w, a_alive a = false -> a_run a <> None ->
  exists w', a_done h F d (a_with_v (vs_cur MSupercede (a_v a)) a) z w = AFin z w' /\ ends w' = OEnd F z :: ends w.
Proof.
  intros h F d a z w Al R. unfold a_done. change (a_run (a_with_v (vs_cur MSupercede (a_v a)) a)) with (a_run a). change (a_phase (a_with_v (vs_cur MSupercede (a_v a)) a)) with (a_phase a). destruct (a_run a) as [[vp n]|]; [|congruence].
  set (w1 := wemit _ w). set (a1 := a_with_v (v_done z _) _).
  assert (Al1 : a_alive a1 = false) by exact Al.
  assert (St : v_status (a_v a1) = MSupercede) by (cbn; destruct (v_status (a_v a)); reflexivity).
  assert (Vr : v_vret (a_v a1) = z) by reflexivity.
  assert (Po : forall b w2, a_alive b = false -> v_status (a_v b) = MSupercede -> v_vret (a_v b) = z -> exists w', a_post h F d b (Some (vp, n)) w2 = AFin z w' /\ ends w' = OEnd F z :: ends w2).
  { intros b w2 Ab Sb Vb. unfold a_post. rewrite next_dead' by exact Ab. unfold a_value. rewrite Sb, Vb. cbn [meta_ge]. eexists. split; [reflexivity|].
    unfold ends at 1. cbn [wemit w_obs filter is_end]. f_equal. apply close_ends. }
  assert (Pn : forall b w2, a_alive b = false -> v_status (a_v b) = MSupercede -> v_vret (a_v b) = z -> exists w', a_post h F d b None w2 = AFin z w' /\ ends w' = OEnd F z :: ends w2).
  { intros b w2 Ab Sb Vb. unfold a_post. rewrite next_dead' by exact Ab. unfold a_value. rewrite Sb, Vb. cbn [meta_ge]. eexists. split; [reflexivity|].
    unfold ends at 1. cbn [wemit w_obs filter is_end]. f_equal. apply close_ends. }
  assert (Pre : exists w', a_pre h F d a1 (Some (vp, n)) w1 = AFin z w' /\ ends w' = OEnd F z :: ends w).
  { unfold a_pre. rewrite next_dead' by exact Al1. rewrite St. cbn [meta_ge negb andb]. unfold a_begin_post.
    destruct (Pn (a_with_v (vs_prev MIgnored (a_v a1)) a1) (wemit (OPost F) w1)) as (w' & E1 & E2); auto. exists w'. split; [exact E1|exact E2]. }
  destruct (a_phase a); [exact Pre|exact Pre|]. destruct (Po a1 w1) as (w' & E1 & E2); auto. exists w'. auto.
Qed.
(** Everybody who waits for the recall ends with its value. *)
Lemma unwind_ends : forall h A aft z w, rec_ready aft A ->
  (forall G y, In (OEnd G y) (w_obs (as_w (a_unwind h aft z A w))) -> In (OEnd G y) (w_obs w) \/ y = z) /\
  (forall f A', aft = ARecall -> A = f :: A' -> In (OEnd (af_id f) z) (w_obs (as_w (a_unwind h aft z A w)))) /\
  (forall N g f B, A = N ++ g :: f :: B -> af_after g = ARecall -> In (OEnd (af_id g) z) (w_obs (as_w (a_unwind h aft z A w))) ->
     ~ In (OEnd (af_id g) z) (w_obs w) -> NoDup (map af_id A) -> In (OEnd (af_id f) z) (w_obs (as_w (a_unwind h aft z A w)))).
Proof.
  assert (Ends : forall G y w, In (OEnd G y) (w_obs w) <-> In (OEnd G y) (ends w)).
  { intros G y w. unfold ends. rewrite filter_In. cbn. intuition. }
  intros h A. induction A as [|f A IH]; intros aft z w R.
  - destruct aft; cbn [a_unwind as_w] in *; (split; [auto|split; [intros; discriminate|intros N g f B E; destruct N; discriminate]]) || contradiction.
  - assert (Base : ends (as_w (a_unwind h aft z (f :: A) w)) = ends w -> aft <> ARecall ->
      (forall G y, In (OEnd G y) (w_obs (as_w (a_unwind h aft z (f :: A) w))) -> In (OEnd G y) (w_obs w) \/ y = z) /\
      (forall f0 A', aft = ARecall -> f :: A = f0 :: A' -> In (OEnd (af_id f0) z) (w_obs (as_w (a_unwind h aft z (f :: A) w)))) /\
      (forall N g f0 B, f :: A = N ++ g :: f0 :: B -> af_after g = ARecall -> In (OEnd (af_id g) z) (w_obs (as_w (a_unwind h aft z (f :: A) w))) ->
         ~ In (OEnd (af_id g) z) (w_obs w) -> NoDup (map af_id (f :: A)) -> In (OEnd (af_id f0) z) (w_obs (as_w (a_unwind h aft z (f :: A) w))))).
    { intros Ee Na. split; [intros G y H; left; apply Ends; rewrite <- Ee; now apply Ends|]. split; [congruence|].
      intros N g f0 B _ _ H1 H2. exfalso. apply H2. apply Ends. rewrite <- Ee. now apply Ends. }
    destruct aft; cbn [rec_ready] in R.
    + apply Base; [reflexivity|discriminate].
    + apply Base; [|discriminate]. cbn [a_unwind]. unfold a_reset. destruct (take_ign (f :: A)); [apply close_ends|reflexivity].
    + clear Base. destruct R as [R0 R]. cbn [a_unwind]. destruct (af_hook f) as [a|] eqn:Eh; [|contradiction]. destruct R0 as [R1 R2].
      destruct (done_recall h (af_id f) (depth A) a z w R1 R2) as (w' & -> & Ee). destruct (IH (af_after f) z w' R) as (H1 & H2 & H3).
      assert (Mono : forall o, In o (w_obs w') -> In o (w_obs (as_w (a_unwind h (af_after f) z A w')))).
      { intros o Io. destruct (emits_unwind h A (af_after f) z w') as (l & -> & _). apply in_or_app. now right. }
      assert (Hf : In (OEnd (af_id f) z) (w_obs (as_w (a_unwind h (af_after f) z A w')))) by (apply Mono, Ends; rewrite Ee; now left).
      split; [|split].
      * intros G y I'. destruct (H1 G y I') as [I2| ->]; [|now right]. apply Ends in I2. rewrite Ee in I2. destruct I2 as [I2|I2]; [right; congruence|left; now apply Ends].
      * intros f0 A' _ E. injection E as <- <-. exact Hf.
      * intros N g f0 B E Eg I1 I2 ND. destruct N as [|g0 N]; cbn [app] in E; injection E as E1 E2.
        -- subst g. apply (H2 f0 B); [exact Eg|exact E2].
        -- subst g0. apply (H3 N g f0 B); auto; [|now inversion ND].
           intros I3. apply Ends in I3. rewrite Ee in I3. destruct I3 as [I3|I3]; [|apply I2; now apply Ends].
           injection I3 as I3. inversion ND as [|? ? NI _]; subst. apply NI. rewrite map_app. apply in_or_app. right. left. now symmetry.
Qed.

Lemma in_ends : forall G y w, In (OEnd G y) (w_obs w) <-> In (OEnd G y) (ends w).
Proof. intros G y w. unfold ends. rewrite filter_In. cbn. intuition. Qed.
Definition out_ends (F : nat) (w : world) (o : aout) : Prop :=
  match o with AStop _ w' => ends w' = ends w | AFin z w' => ends w' = OEnd F z :: ends w end.
Lemma out_mild : forall F o w r, is_end o = false -> out_ends F (wemit o w) r -> out_ends F w r.
Proof. intros F o w [a w'|z w'] H; cbn [out_ends]; unfold ends at 2; cbn [wemit w_obs filter]; rewrite H; auto. Qed.
Lemma post_ends : forall h F d a from w, out_ends F w (a_post h F d a from w).
Proof.
  intros. unfold a_post. destruct (next h a true from); cbn [a_start out_ends]; [reflexivity|]. unfold ends at 1. cbn [wemit w_obs filter is_end]. f_equal. apply close_ends.
Qed.
Lemma begin_post_ends : forall h F d a from w, out_ends F w (a_begin_post h F d a from w).
Proof. intros. unfold a_begin_post. eapply out_mild; [|apply post_ends]. reflexivity. Qed.
Lemma pre_ends : forall h F d a from w, out_ends F w (a_pre h F d a from w).
Proof. intros. unfold a_pre. destruct (next h a false from); [reflexivity|]. destruct (_ && _); [reflexivity|apply begin_post_ends]. Qed.
Lemma done_ends : forall h F d a z w, out_ends F w (a_done h F d a z w).
Proof.
  intros. unfold a_done. destruct (a_run a) as [[vp n]|]; [|reflexivity].
  eapply out_mild; [|destruct (a_phase a); [apply pre_ends|apply pre_ends|apply post_ends]]. reflexivity.
Qed.
Lemma resume_pairs : forall h o F0 aft A w, out_ends F0 w o -> ends w = [] -> rec_ready aft A -> NoDup (F0 :: map af_id A) ->
  let x := a_resume h o F0 aft A in
  (forall N g f B y, A = N ++ g :: f :: B -> af_after g = ARecall -> In (OEnd (af_id g) y) (w_obs (as_w x)) -> In (OEnd (af_id f) y) (w_obs (as_w x))) /\
  (forall f B y, aft = ARecall -> A = f :: B -> In (OEnd F0 y) (w_obs (as_w x)) -> In (OEnd (af_id f) y) (w_obs (as_w x))).
Proof.
  intros h o F0 aft A w Oe E0 R ND x. subst x. destruct o as [a w'|z w']; cbn [a_resume as_w out_ends] in *.
  - rewrite E0 in Oe. split; intros; exfalso; match goal with H : In (OEnd _ _) _ |- _ => apply in_ends in H; rewrite Oe in H; contradiction end.
  - rewrite E0 in Oe. inversion ND as [|? ? NI ND']; subst. destruct (unwind_ends h A aft z w' R) as (H1 & H2 & H3).
    assert (Val : forall G y, In (OEnd G y) (w_obs (as_w (a_unwind h aft z A w'))) -> y = z).
    { intros G y I'. destruct (H1 G y I') as [I2|E]; [|exact E]. apply in_ends in I2. rewrite Oe in I2. destruct I2 as [I2|[]]. congruence. }
    split.
    + intros N g f B y EA Eg I'. pose proof (Val _ _ I'). subst y. eapply H3; eauto.
      intros I2. apply in_ends in I2. rewrite Oe in I2. destruct I2 as [I2|[]]. injection I2 as I2. apply NI. rewrite I2, EA, map_app. apply in_or_app. right. now left.
    + intros f B y Ea EA I'. pose proof (Val _ _ I'). subst y. eapply H2; eauto.
Qed.
Lemma pair_frames : forall A N G F aft B, map fst (map sig A) = N ++ (G, ARecall, true) :: (F, aft, true) :: B ->
  exists N' g f B', A = N' ++ g :: f :: B' /\ af_id g = G /\ af_after g = ARecall /\ af_id f = F.
Proof.
  intros A N. revert A. induction N as [|y N IH]; intros A G F aft B E.
  - destruct A as [|g [|f A]]; cbn [map app] in E; try discriminate. injection E as E1 E2 E3 E4 E5 E6 E7. exists [], g, f, A. auto.
  - destruct A as [|g A]; [discriminate|]. cbn [map app] in E. injection E as _ E. destruct (IH A G F aft B E) as (N' & g' & f' & B' & -> & H). exists (g :: N'), g', f', B'. auto.
Qed.
Theorem recall_ends : forall m0 s A e s' x G F sl th p y, (forall a, Z.odd (m0 a) = false) -> LInv m0 s A -> SInv s A -> allowed (s_h s) A e -> step s e = Ok s' ->
  astep (s_h s) (s_h s') A (b_pend (s_b s)) e = Some x ->
  In (OBegin G sl th p (KRecall F)) (h_tr (s_h s')) -> In (OEnd G y) (w_obs (as_w x)) -> In (OEnd F y) (w_obs (as_w x)).
Proof.
  intros m0 s A e s' x G F sl th p y Ev L S Al E Ea Ib Ie.
  destruct (step_loop m0 s A e s' Ev L Al E) as (x' & new & Ea' & L' & Sn & Ep & Hn & Hnn & _).
  assert (x' = x) by congruence. subst x'. unfold since in Sn.
  assert (Hr : runs e = true). { destruct (runs e) eqn:Hr; [reflexivity|]. exfalso. destruct e; try discriminate; cbn [astep] in Ea; injection Ea as <-; contradiction. }
  rewrite Sn, (Hn Hr) in Ib. apply in_app_or in Ib.
  pose proof (cinv_ids _ _ _ (li_c _ _ _ L)) as Ids. pose proof (ci_nd _ _ _ (li_c _ _ _ L)) as ND. rewrite <- Ids in ND.
  assert (NI : ~ In (h_nxt (s_h s)) (map af_id A)).
  { rewrite Ids. intros H. apply (ci_fresh _ _ _ (li_c _ _ _ L)) in H. lia. }
  (* [G] is on the stack, above [F], or is a recall by the top *)
  assert (Pos : (exists N g f B, A = N ++ g :: f :: B /\ af_id g = G /\ af_after g = ARecall /\ af_id f = F) \/
                (G = h_nxt (s_h s) /\ exists res val offs vo idx q, e = ERecall res val offs vo idx q /\ exists f B, A = f :: B /\ af_id f = F)).
  { destruct Ib as [Ib|Ib].
    - right. destruct (astep_begin _ _ _ _ _ _ _ _ _ _ _ Ea Ib) as [-> (res & val & offs & vo & idx & f & a & B & -> & -> & Ef & Eh & _)]. split; [reflexivity|]. exists res, val, offs, vo, idx, p. split; [reflexivity|]. eauto.
    - left. assert (IG : In G (map af_id A)).
      { destruct (astep_obs _ _ _ _ _ _ Ea) as [O1 _]. destruct (O1 _ G Ie eq_refl) as [H|[_ H]]; [exact H|]. pose proof (li_fid _ _ _ L _ G Ib eq_refl). lia. }
      destruct (si_rec _ _ S G F sl th p Ib IG) as (N & aft & B & EB). eapply pair_frames; eauto. }
  assert (Pair : forall A1 h0 o F0 aft w, map af_id A1 = map af_id A -> map af_after A1 = map af_after A -> out_ends F0 w o -> ends w = [] -> rec_ready aft A1 -> ~ In F0 (map af_id A) ->
     In (OEnd G y) (w_obs (as_w (a_resume h0 o F0 aft A1))) -> (G = F0 -> aft = ARecall /\ exists f B, A = f :: B /\ af_id f = F) ->
     (exists N g f B, A = N ++ g :: f :: B /\ af_id g = G /\ af_after g = ARecall /\ af_id f = F) \/ G = F0 ->
     In (OEnd F y) (w_obs (as_w (a_resume h0 o F0 aft A1)))).
  { intros A1 h0 o F0 aft w Ei Ef Oe E0 R N0 I' H0 D.
    destruct (resume_pairs h0 o F0 aft A1 w Oe E0 R) as [P1 P2]; [rewrite Ei; constructor; auto|].
    destruct D as [(N & g & f & B & EA & Eg & Eaf & EF)|EG].
    - assert (EA1 : exists N1 g1 f1 B1, A1 = N1 ++ g1 :: f1 :: B1 /\ af_id g1 = G /\ af_after g1 = ARecall /\ af_id f1 = F).
      { clear - EA Eg Eaf EF Ei Ef. subst A. revert A1 Ei Ef. induction N as [|k N IH]; intros [|k1 A1] Ei Ef; try discriminate; cbn [app map] in *.
        - destruct A1 as [|f1 A1]; [discriminate|]. cbn [map] in *. injection Ei as I1 I2 I3. injection Ef as J1 J2 J3. exists [], k1, f1, A1. repeat split; congruence.
        - injection Ei as I1 I2. injection Ef as J1 J2. destruct (IH A1 I2 J2) as (N1 & g1 & f1 & B1 & -> & H). exists (k1 :: N1), g1, f1, B1. auto. }
      destruct EA1 as (N1 & g1 & f1 & B1 & EA1 & Eg1 & Eaf1 & EF1). rewrite <- EF1. eapply P1; eauto. now rewrite Eg1.
    - destruct (H0 EG) as [Ear (f & B & EA & EF)]. subst A. destruct A1 as [|f1 B1]; [discriminate|]. cbn [map] in Ei. injection Ei as Ei _. rewrite <- EF, <- Ei.
      eapply P2; [exact Ear|reflexivity|]. rewrite EG in I'. exact I'. }
  pose proof (li_st _ _ _ L) as St.
  destruct e as [th' vo idx q|th' vo idx q|z|m|res val offs vo idx q| | | | | | | | | |]; try discriminate; cbn [astep] in Ea.
  - destruct Pos as [Pos|(_ & res & val & offs & vo' & idx' & q' & X & _)]; [|discriminate]. injection Ea as <-.
    destruct (is_hookcode _); [|destruct Ie as [X|[]]; discriminate].
    assert (NG : G <> h_nxt (s_h s)). { destruct Pos as (N & g & f & B & -> & <- & _). intros X. apply NI. rewrite <- X, map_app. apply in_or_app. right. now left. }
    destruct (take_ign A) as [A1|] eqn:Et.
    + eapply Pair; [eapply take_ign_ids; eauto| |apply pre_ends|reflexivity|apply rec_plain; discriminate|exact NI|exact Ie|congruence|now left].
      clear - Et. revert A1 Et. induction A as [|k A IH]; intros A1 Et; cbn [take_ign] in Et; [discriminate|]. destruct (af_hook k); [discriminate|].
      destruct (af_ign k); [injection Et as <-; reflexivity|]. destruct (take_ign A) as [r|]; [|discriminate]. injection Et as <-. cbn. f_equal. now apply IH.
    + eapply Pair; [reflexivity|reflexivity|apply pre_ends|reflexivity|apply rec_plain; discriminate|exact NI|exact Ie|congruence|now left].
  - destruct Pos as [Pos|(_ & res & val & offs & vo' & idx' & q' & X & _)]; [|discriminate]. injection Ea as <-.
    destruct (is_hookcode _); [|destruct Ie as [X|[]]; discriminate].
    assert (NG : G <> h_nxt (s_h s)). { destruct Pos as (N & g & f & B & -> & <- & _). intros X. apply NI. rewrite <- X, map_app. apply in_or_app. right. now left. }
    eapply Pair; [reflexivity|reflexivity|apply pre_ends|reflexivity|apply rec_plain; discriminate|exact NI|exact Ie|congruence|now left].
  - destruct Pos as [(N & g & f & B & EA & Eg & Eaf & EF)|(_ & res & val & offs & vo' & idx' & q' & X & _)]; [|discriminate].
    destruct A as [|t A]; [discriminate|]. cbn [stack_ok] in St. destruct St as [St0 St]. pose proof (stack_ready _ _ _ _ _ St) as Rd. cbn [map] in ND. 
    destruct (af_hook t) as [a|] eqn:Eh.
    + assert (Go : forall o w, out_ends (af_id t) w o -> ends w = [] -> In (OEnd G y) (w_obs (as_w (a_resume (s_h s) o (af_id t) (af_after t) A))) ->
         In (OEnd F y) (w_obs (as_w (a_resume (s_h s) o (af_id t) (af_after t) A)))).
      { intros o w Oe E0 I'. destruct (resume_pairs (s_h s) o (af_id t) (af_after t) A w Oe E0 Rd ND) as [P1 P2].
        destruct N as [|k N]; cbn [app] in EA; injection EA as E1 E2.
        - subst g. rewrite <- EF. eapply P2; [exact Eaf|exact E2|]. rewrite <- Eg in I'. exact I'.
        - rewrite <- EF. eapply P1; [exact E2|exact Eaf|]. now rewrite Eg. }
      destruct (a_run a); injection Ea as <-.
      * eapply Go; [apply done_ends|reflexivity|exact Ie].
      * eapply Go; [apply begin_post_ends|reflexivity|exact Ie].
    + injection Ea as <-. destruct (af_ign t).
      * exfalso. destruct (af_after t); cbn [as_w] in Ie; try (destruct Ie as [X|[]]; discriminate).
        apply in_ends in Ie. rewrite close_ends in Ie. contradiction.
      * destruct (unwind_ends (s_h s) A (af_after t) z (wemit (ONativeRet (af_id t) z) (World (b_pend (s_b s)) [])) Rd) as (H1 & H2 & H3).
        assert (y = z). { destruct (H1 G y Ie) as [[X|[]]|X]; [discriminate|exact X]. } subst y.
        destruct N as [|k N]; cbn [app] in EA; injection EA as E1 E2.
        -- subst g. rewrite <- EF. eapply H2; eauto.
        -- rewrite <- EF. eapply H3; [exact E2|exact Eaf|now rewrite Eg| |now inversion ND]. intros [X|[]]. discriminate.
  - destruct A as [|t A]; [discriminate|]. destruct (af_hook t) as [a|]; [|discriminate]. destruct (a_run a); [|discriminate]. injection Ea as <-. contradiction.
  - destruct A as [|t A]; [discriminate|]. cbn [stack_ok] in St. destruct (af_hook t) as [a|] eqn:Eh; [|discriminate]. destruct (a_run a) as [[vp n]|] eqn:Er; [|discriminate]. injection Ea as <-.
    unfold a_recall in *. set (f1 := AFrame (af_id t) (af_after t) false _) in *.
    eapply (Pair (f1 :: A)); [reflexivity|reflexivity| | | |exact NI|exact Ie| |].
    + instantiate (1 := wemit (OBegin (h_nxt (s_h s)) (a_slot a) (a_this a) q (KRecall (af_id t))) (wemit (ORecall (af_id t) n res val) (World (b_pend (s_b s)) []))).
      destruct (a_phase a); [apply pre_ends|apply pre_ends|apply begin_post_ends].
    + reflexivity.
    + cbn [rec_ready f1 af_hook af_after a_off a_alive a_run]. split; [split; [reflexivity|congruence]|]. destruct St as [_ St]. eapply stack_ready; eauto.
    + intros EG. split; [reflexivity|]. destruct Pos as [(N & g & f & B & EA & Eg & _)|(_ & _ & _ & _ & _ & _ & _ & _ & f & B & EA & EF)]; [|eauto].
      exfalso. apply NI. rewrite <- EG, <- Eg, EA, map_app. apply in_or_app. right. now left.
    + destruct Pos as [Pos|[Pos _]]; [now left|now right].
Qed.
