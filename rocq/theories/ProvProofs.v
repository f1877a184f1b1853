(** Proofs about the hooks of the providers. *)
From Coq Require Import List Bool Arith String Lia.
From Verif Require Import ProvModel ProvSpec.
Import ListNotations.
Local Open Scope nat_scope.
Notation length := List.length.

Lemma hook_eqb_spec a b : hook_eqb a b = true <-> a = b.
Proof.
  destruct a as [m o], b as [m' o']. unfold hook_eqb. cbn [fst snd]. rewrite andb_true_iff, Nat.eqb_eq.
  destruct (meth_eq_dec m m') as [->|N]; split.
  - intros [_ ->]. reflexivity.
  - intros H. injection H as ->. auto.
  - intros [D _]. discriminate D.
  - intros H. injection H as -> _. contradiction.
Qed.
Lemma hook_eqb_refl a : hook_eqb a a = true.
Proof. apply hook_eqb_spec. reflexivity. Qed.
Lemma hook_eqb_neq a b : a <> b -> hook_eqb a b = false.
Proof. intros N. destruct (hook_eqb a b) eqn:E; [|reflexivity]. apply hook_eqb_spec in E. contradiction. Qed.

Lemma count_app h l l' : count h (l ++ l') = count h l + count h l'.
Proof. unfold count. rewrite filter_app, app_length. reflexivity. Qed.
Lemma count_one h x : count h [x] = if hook_eqb h x then 1 else 0.
Proof. unfold count. cbn [filter]. destruct (hook_eqb h x); reflexivity. Qed.
Lemma count_del h x l : count h (filter (fun y => negb (hook_eqb x y)) l) = if hook_eqb x h then 0 else count h l.
Proof.
  induction l as [|y l IH]; cbn [filter].
  - destruct (hook_eqb x h); reflexivity.
  - assert (S : forall z, count h (z :: l) = count h [z] + count h l) by (intros z; apply (count_app h [z] l)).
    assert (S' : forall z l', count h (z :: l') = count h [z] + count h l') by (intros z l'; apply (count_app h [z] l')).
    destruct (hook_eqb x y) eqn:E; cbn [negb].
    + rewrite IH. destruct (hook_eqb x h) eqn:E2; [reflexivity|].
      apply hook_eqb_spec in E. subst y. rewrite S, count_one.
      rewrite hook_eqb_neq; [reflexivity|]. intros ->. rewrite hook_eqb_refl in E2. discriminate E2.
    + rewrite S', S, IH. destruct (hook_eqb x h) eqn:E2; [|reflexivity].
      apply hook_eqb_spec in E2. subst h. rewrite count_one, E. reflexivity.
Qed.

(** hooks that may be there *)
Definition expected_hook (s : st) (h : hook) : Prop :=
  match fst h with
  | ClientCommand => snd h = clients s
  | RegisterLoopMode | UnregisterLoopMode => snd h = svcmgr s
  | CreateLoopMode | DestroyLoopMode | LoopInit | LoopShutdown => True
  | GameInit | LevelInit | LevelShutdown => False
  end.
(** the invariant *)
Record inv (cl : bool) (e : eng) (s : st) : Prop := {
  i_mgr : count (RegisterLoopMode, svcmgr s) (hooks s) = 1;
  i_unmgr : count (UnregisterLoopMode, svcmgr s) (hooks s) = 1;
  i_cl : count (ClientCommand, clients s) (hooks s) = if cl then 1 else 0;
  i_create : forall f, count (CreateLoopMode, f) (hooks s) = if reg e f then 1 else 0;
  i_destroy : forall f, count (DestroyLoopMode, f) (hooks s) = if reg e f then 1 else 0;
  i_init : forall m, count (LoopInit, m) (hooks s) = match live e m with Some (_, true) => 1 | _ => 0 end;
  i_stop : forall m, count (LoopShutdown, m) (hooks s) = match live e m with Some (_, true) => 1 | _ => 0 end;
  i_tracked : forall m f, live e m = Some (f, true) -> reg e f = true;
  i_clz : cl = negb (clients s =? 0);
  i_only : forall h, In h (hooks s) -> expected_hook s h
}.

Lemma hook_eqb_pair m o m' o' :
  hook_eqb (m, o) (m', o') = (if meth_eq_dec m m' then true else false) && (o =? o').
Proof. reflexivity. Qed.

Ltac counts := repeat (first
  [ rewrite count_del | rewrite count_app | rewrite count_one | rewrite hook_eqb_pair
  | progress cbn [meth_eq_dec meth_rec meth_rect andb] ]).

(** the last part of the invariant, where hooks are added or removed *)
Ltac only_ok io :=
  try match goal with
  | H : In _ (filter _ _) |- expected_hook _ _ => apply filter_In in H; destruct H as [H _]
  end;
  try match goal with
  | H : In _ (filter _ _) |- expected_hook _ _ => apply filter_In in H; destruct H as [H _]
  end;
  try match goal with
  | H : In ?h _ |- expected_hook _ ?h =>
      repeat (apply in_app_iff in H; destruct H as [H|H]); solve
      [ exact (io _ H)
      | repeat (destruct H as [H|H]; [subst h; exact I|]); destruct H ]
  end.

Lemma step_lawful cl e s o e' a : inv cl e s -> lawful cl e o e' a ->
  exists s', step2 s o = Some s' /\ inv cl e' s' /\ outs s' = outs s ++ a.
Proof.
  intros I L. destruct I as [im iu ic icr ide iin ist it iz io].
  destruct L as [f F0 R|n f N|f T|n f N|f m M0 LM|f m t LM|m f t LM|m f t LM|c]; cbn [step2]; unfold called.
  - (* Register "game" *)
    rewrite im. cbn [times]. unfold Hook_RegisterLoopMode. rewrite String.eqb_refl.
    unfold add. apply Nat.eqb_neq in F0. cbn [bind]; rewrite ?F0; cbn [bind]; rewrite ?F0; cbn [bind].
    eexists. split; [reflexivity|]. split; [|reflexivity].
    constructor; cbn [hooks svcmgr clients announce set_hooks reg live]; intros; only_ok io; counts; rewrite ?Nat.add_0_r; auto.
    + rewrite icr. unfold upd. destruct (Nat.eqb_spec f0 f) as [->|E]; [rewrite R; reflexivity|]. lia.
    + rewrite ide. unfold upd. destruct (Nat.eqb_spec f0 f) as [->|E]; [rewrite R; reflexivity|]. lia.
    + unfold upd. destruct (f0 =? f); [reflexivity|]. eapply it. eassumption.
  - rewrite im. cbn [times]. unfold Hook_RegisterLoopMode.
    replace (String.eqb n "game") with false by (symmetry; apply String.eqb_neq; exact N). cbn [bind].
    exists s. split; [reflexivity|]. split; [constructor; assumption|]. rewrite app_nil_r. reflexivity.
  - rewrite iu. cbn [times]. unfold Hook_UnregisterLoopMode. rewrite String.eqb_refl. unfold del. cbn [bind].
    eexists. split; [reflexivity|]. split; [|cbn [outs set_hooks]; rewrite app_nil_r; reflexivity].
    constructor; cbn [hooks svcmgr clients announce set_hooks reg live]; intros; only_ok io; counts; rewrite ?Nat.add_0_r; auto.
    + rewrite icr. unfold upd. rewrite (Nat.eqb_sym f0 f). destruct (f =? f0); reflexivity.
    + rewrite ide. unfold upd. rewrite (Nat.eqb_sym f0 f). destruct (f =? f0); reflexivity.
    + unfold upd. destruct (Nat.eqb_spec f0 f) as [->|E]; [|eapply it; eassumption].
      exfalso. exact (T _ H).
  - rewrite iu. cbn [times]. unfold Hook_UnregisterLoopMode.
    replace (String.eqb n "game") with false by (symmetry; apply String.eqb_neq; exact N). cbn [bind].
    exists s. split; [reflexivity|]. split; [constructor; assumption|]. rewrite app_nil_r. reflexivity.
  - rewrite icr. apply Nat.eqb_neq in M0. destruct (reg e f) eqn:R; cbn [times].
    + unfold Hook_CreateLoopModePost, add. cbn [bind]; rewrite ?M0; cbn [bind]; rewrite ?M0; cbn [bind].
      eexists. split; [reflexivity|]. split; [|cbn [outs set_hooks]; rewrite app_nil_r; reflexivity].
      constructor; cbn [hooks svcmgr clients announce set_hooks reg live]; intros; only_ok io; counts; rewrite ?Nat.add_0_r; auto.
      * rewrite iin. unfold upd. destruct (Nat.eqb_spec m0 m) as [->|E]; [rewrite LM; reflexivity|]. lia.
      * rewrite ist. unfold upd. destruct (Nat.eqb_spec m0 m) as [->|E]; [rewrite LM; reflexivity|]. lia.
      * unfold upd in H. destruct (m0 =? m); [injection H as <-; exact R|]. eapply it. eassumption.
    + exists s. split; [reflexivity|]. split; [|rewrite app_nil_r; reflexivity].
      constructor; cbn [reg live]; auto.
      * intros m0. rewrite iin. unfold upd. destruct (Nat.eqb_spec m0 m) as [->|E]; [rewrite LM; reflexivity|reflexivity].
      * intros m0. rewrite ist. unfold upd. destruct (Nat.eqb_spec m0 m) as [->|E]; [rewrite LM; reflexivity|reflexivity].
      * intros m0 f0 H. unfold upd in H. destruct (m0 =? m); [discriminate H|]. eapply it. eassumption.
  - rewrite ide. destruct (reg e f) eqn:R; cbn [times].
    + unfold Hook_DestroyLoopMode, del. cbn [bind].
      eexists. split; [reflexivity|]. split; [|cbn [outs set_hooks]; rewrite app_nil_r; reflexivity].
      constructor; cbn [hooks svcmgr clients announce set_hooks reg live]; intros; only_ok io; counts; rewrite ?Nat.add_0_r; auto.
      * rewrite iin. unfold upd. rewrite (Nat.eqb_sym m0 m). destruct (m =? m0); reflexivity.
      * rewrite ist. unfold upd. rewrite (Nat.eqb_sym m0 m). destruct (m =? m0); reflexivity.
      * unfold upd in H. destruct (m0 =? m); [discriminate H|]. eapply it. eassumption.
    + assert (Ht : t = false). { destruct t; [|reflexivity]. rewrite (it _ _ LM) in R. discriminate R. }
      subst t. exists s. split; [reflexivity|]. split; [|rewrite app_nil_r; reflexivity].
      constructor; cbn [reg live]; auto.
      * intros m0. rewrite iin. unfold upd. destruct (Nat.eqb_spec m0 m) as [->|E]; [rewrite LM; reflexivity|reflexivity].
      * intros m0. rewrite ist. unfold upd. destruct (Nat.eqb_spec m0 m) as [->|E]; [rewrite LM; reflexivity|reflexivity].
      * intros m0 f0 H. unfold upd in H. destruct (m0 =? m); [discriminate H|]. eapply it. eassumption.
  - rewrite iin, LM. destruct t; cbn [times].
    + unfold Hook_LoopInitPost. cbn [bind]. eexists. split; [reflexivity|].
      split; [constructor; assumption|reflexivity].
    + exists s. split; [reflexivity|]. split; [constructor; assumption|]. rewrite app_nil_r. reflexivity.
  - rewrite ist, LM. destruct t; cbn [times].
    + unfold Hook_LoopShutdownPost. cbn [bind]. eexists. split; [reflexivity|].
      split; [constructor; assumption|reflexivity].
    + exists s. split; [reflexivity|]. split; [constructor; assumption|]. rewrite app_nil_r. reflexivity.
  - unfold client_command, called. rewrite ic. destruct cl; cbn [times bind andb Nat.ltb Nat.leb].
    + destruct (String.eqb c "meta"); cbn [bind].
      * eexists. split; [reflexivity|]. split; [constructor; assumption|reflexivity].
      * eexists. split; [reflexivity|]. split; [constructor; assumption|reflexivity].
    + eexists. split; [reflexivity|]. split; [constructor; assumption|reflexivity].
Qed.

Lemma run2_cons o l s s1 : step2 s o = Some s1 -> run2 (o :: l) s = run2 l s1.
Proof. intros E. unfold run2. cbn [fold_left bind]. rewrite E. reflexivity. Qed.

Lemma run_lawful cl e l e' a : lawful_run cl e l e' a -> forall s, inv cl e s ->
  exists s', run2 l s = Some s' /\ inv cl e' s' /\ outs s' = outs s ++ a.
Proof.
  induction 1 as [e|e o e1 a l e2 b L _ IH]; intros s I.
  - exists s. split; [reflexivity|]. split; [exact I|]. rewrite app_nil_r. reflexivity.
  - destruct (step_lawful _ _ _ _ _ _ I L) as (s1 & E1 & I1 & O1).
    destruct (IH s1 I1) as (s2 & E2 & I2 & O2). exists s2. rewrite (run2_cons _ _ _ _ E1).
    split; [exact E2|]. split; [exact I2|]. rewrite O2, O1, app_assoc. reflexivity.
Qed.

Lemma init2_inv e srv : complete2 e ->
  exists s, DLLInit_Pre2 e (start srv) = Some s /\ inv (negb (f_clients e =? 0)) eng0 s /\ outs s = [].
Proof.
  intros (E & C & F & M). apply Nat.eqb_neq in M. unfold DLLInit_Pre2, DLLInit2, start, GetGamePath.
  rewrite E, C, F. cbn [negb hooks svcmgr clients server outs].
  destruct (f_clients e =? 0) eqn:K; unfold add; rewrite ?K; cbn [bind svcmgr set_hooks hooks]; rewrite ?M; cbn [bind svcmgr set_hooks hooks];
    rewrite ?M; cbn [bind].
  - eexists. split; [reflexivity|]. split; [|reflexivity].
    constructor; cbn [hooks svcmgr clients set_hooks app reg live eng0]; intros; try reflexivity; try discriminate;
      try (rewrite K; reflexivity);
      try (match goal with H : In ?h _ |- expected_hook _ ?h => repeat (destruct H as [<-|H]; [reflexivity|]); destruct H end);
      unfold count; cbn [filter]; rewrite !hook_eqb_pair; cbn [meth_eq_dec meth_rec meth_rect andb]; rewrite ?Nat.eqb_refl; reflexivity.
  - eexists. split; [reflexivity|]. split; [|reflexivity].
    constructor; cbn [hooks svcmgr clients set_hooks app reg live eng0]; intros; try reflexivity; try discriminate;
      try (rewrite K; reflexivity);
      try (match goal with H : In ?h _ |- expected_hook _ ?h => repeat (destruct H as [<-|H]; [reflexivity|]); destruct H end);
      unfold count; cbn [filter]; rewrite !hook_eqb_pair; cbn [meth_eq_dec meth_rec meth_rect andb]; rewrite ?Nat.eqb_refl; reflexivity.
Qed.

(** ** Source 1 *)
Record inv1 (cl : bool) (s : st) : Prop := {
  j_cl : count (ClientCommand, clients s) (hooks s) = if cl then 1 else 0;
  j_game : count (GameInit, server s) (hooks s) = 1;
  j_init : count (LevelInit, server s) (hooks s) = 1;
  j_stop : count (LevelShutdown, server s) (hooks s) = 1
}.
Lemma step1_inv cl s o : inv1 cl s ->
  exists s', step1 s o = Some s' /\ inv1 cl s' /\ outs s' = outs s ++ [expected1 cl o].
Proof.
  intros [a b c d]. destruct o as [| | |x]; cbn [step1 expected1]; unfold client_command, called.
  - rewrite b. cbn [times bind]. eexists. split; [reflexivity|]. split; [constructor; assumption|reflexivity].
  - rewrite c. cbn [times bind]. eexists. split; [reflexivity|]. split; [constructor; assumption|reflexivity].
  - rewrite d. cbn [times bind]. eexists. split; [reflexivity|]. split; [constructor; assumption|reflexivity].
  - rewrite a. destruct cl; cbn [times bind andb Nat.ltb Nat.leb].
    + destruct (String.eqb x "meta"); cbn [bind];
        (eexists; split; [reflexivity|]; split; [constructor; assumption|reflexivity]).
    + eexists. split; [reflexivity|]. split; [constructor; assumption|reflexivity].
Qed.
Lemma run1_inv cl l : forall s, inv1 cl s ->
  exists s', run1 l s = Some s' /\ inv1 cl s' /\ outs s' = outs s ++ map (expected1 cl) l.
Proof.
  induction l as [|o l IH]; intros s I.
  - exists s. split; [reflexivity|]. split; [exact I|]. rewrite app_nil_r. reflexivity.
  - destruct (step1_inv cl s o I) as (s1 & E1 & I1 & O1). destruct (IH s1 I1) as (s2 & E2 & I2 & O2).
    exists s2. unfold run1 in *. cbn [fold_left bind]. rewrite E1. split; [exact E2|]. split; [exact I2|].
    rewrite O2, O1, <- app_assoc. reflexivity.
Qed.
Lemma init1_inv e srv : complete1 e -> srv <> 0 ->
  exists s, DLLInit_Pre1 e (start srv) = Some s /\ inv1 (negb (f_clients e =? 0)) s /\ outs s = [].
Proof.
  intros (E & C) M. apply Nat.eqb_neq in M. unfold DLLInit_Pre1, DLLInit1, start, GetGamePath.
  rewrite E, C. cbn [negb hooks svcmgr clients server outs].
  destruct (f_clients e =? 0) eqn:K; unfold add; rewrite ?K; repeat (cbn [bind server set_hooks hooks]; rewrite ?M); cbn [bind].
  - eexists. split; [reflexivity|]. split; [|reflexivity].
    constructor; cbn [hooks server clients set_hooks app]; try reflexivity;
      unfold count; cbn [filter]; rewrite !hook_eqb_pair; cbn [meth_eq_dec meth_rec meth_rect andb]; rewrite ?Nat.eqb_refl; reflexivity.
  - eexists. split; [reflexivity|]. split; [|reflexivity].
    constructor; cbn [hooks server clients set_hooks app]; try reflexivity;
      unfold count; cbn [filter]; rewrite !hook_eqb_pair; cbn [meth_eq_dec meth_rec meth_rect andb]; rewrite ?Nat.eqb_refl; reflexivity.
Qed.

(** ** When the start is defined, and what the shutdown leaves *)
Lemma init2_defined e srv : DLLInit_Pre2 e (start srv) <> None <->
  f_engine e = true /\ (f_icvar e = true -> f_fs e = true /\ f_mgr e <> 0).
Proof.
  unfold DLLInit_Pre2, DLLInit2, start, GetGamePath. destruct (f_engine e) eqn:E; cbn [negb bind].
  2:{ split; [intros H; exfalso; apply H; reflexivity|intros [D _]; discriminate D]. }
  destruct (f_icvar e) eqn:C; cbn [negb bind].
  2:{ split; [intros _; split; [reflexivity|intros D; discriminate D]|intros _ D; discriminate D]. }
  destruct (f_fs e) eqn:F; cbn [negb bind].
  2:{ split; [intros H; exfalso; apply H; reflexivity|intros [_ H]; destruct (H eq_refl) as [D _]; discriminate D]. }
  cbn [clients svcmgr hooks server outs]. destruct (f_mgr e =? 0) eqn:M.
  - assert (M' := M). apply Nat.eqb_eq in M'.
    split; [|intros [_ H]; destruct (H eq_refl) as [_ D]; contradiction].
    intros H. exfalso. apply H. destruct (f_clients e =? 0) eqn:K; unfold add; repeat (rewrite ?K, ?M; cbn [bind svcmgr set_hooks hooks]); reflexivity.
  - assert (M' := M). apply Nat.eqb_neq in M'. split; [intros _; auto|]. intros _.
    destruct (f_clients e =? 0) eqn:K; unfold add; repeat (rewrite ?K, ?M; cbn [bind svcmgr set_hooks hooks]); discriminate.
Qed.
Lemma init1_defined e srv : DLLInit_Pre1 e (start srv) <> None <->
  f_engine e = true /\ (f_icvar e = true -> srv <> 0).
Proof.
  unfold DLLInit_Pre1, DLLInit1, start, GetGamePath. destruct (f_engine e) eqn:E; cbn [negb bind].
  2:{ split; [intros H; exfalso; apply H; reflexivity|intros [D _]; discriminate D]. }
  destruct (f_icvar e) eqn:C; cbn [negb bind].
  2:{ split; [intros _; split; [reflexivity|intros D; discriminate D]|intros _ D; discriminate D]. }
  cbn [clients svcmgr hooks server outs]. destruct (srv =? 0) eqn:M.
  - assert (M' := M). apply Nat.eqb_eq in M'. split; [|intros [_ H]; destruct (H eq_refl M')].
    intros H. exfalso. apply H. destruct (f_clients e =? 0) eqn:K; unfold add; repeat (rewrite ?K, ?M; cbn [bind server set_hooks hooks]); reflexivity.
  - assert (M' := M). apply Nat.eqb_neq in M'. split; [intros _; auto|]. intros _.
    destruct (f_clients e =? 0) eqn:K; unfold add; repeat (rewrite ?K, ?M; cbn [bind server set_hooks hooks]); discriminate.
Qed.

Lemma count_zero l : (forall h, count h l = 0) -> l = [].
Proof.
  destruct l as [|x l]; [reflexivity|]. intros H. specialize (H x). unfold count in H. cbn [filter] in H.
  rewrite hook_eqb_refl in H. discriminate H.
Qed.

Lemma count_pos h l : count h l <> 0 -> In h l.
Proof.
  unfold count. intros N. destruct (filter (hook_eqb h) l) as [|x k] eqn:E; [exfalso; apply N; reflexivity|].
  assert (F : In x (filter (hook_eqb h) l)) by (rewrite E; left; reflexivity).
  apply filter_In in F. destruct F as [F Q]. apply hook_eqb_spec in Q. subst x. exact F.
Qed.
Lemma meth_eqb_refl m : (if meth_eq_dec m m then true else false) = true.
Proof. destruct (meth_eq_dec m m); [reflexivity|contradiction]. Qed.

Lemma shutdown2_count s : exists s', DLLShutdown2 s = Some s' /\ forall h,
  count h (hooks s') = if hook_eqb (RegisterLoopMode, svcmgr s) h || hook_eqb (UnregisterLoopMode, svcmgr s) h
    || (negb (clients s =? 0) && hook_eqb (ClientCommand, clients s) h) then 0 else count h (hooks s).
Proof.
  unfold DLLShutdown2, del. cbn [bind svcmgr clients set_hooks hooks].
  destruct (clients s =? 0) eqn:K; (eexists; split; [reflexivity|]); intros h; cbn [hooks set_hooks negb andb];
    rewrite !count_del; destruct (hook_eqb (RegisterLoopMode, svcmgr s) h), (hook_eqb (UnregisterLoopMode, svcmgr s) h);
    cbn [orb]; try reflexivity; destruct (hook_eqb (ClientCommand, clients s) h); reflexivity.
Qed.
