(** The calls the hook function makes, block by block. *)
From Coq Require Import List ZArith Bool Lia.
From Verif Require Import TrampModel ProtoModel GenModel Asm32Model Asm32Spec Asm32Proofs Mach32 Mach32Proofs
  Jit32Model Jit32Spec Jit32Steps Jit32Base Jit32PubProofs Jit32HookSpec Jit32HookList Jit32Arith Jit32Frame Jit32Push.
Import ListNotations.
Local Open Scope Z_scope.
Notation length := List.length.

Section Blocks.
Variables (u : fpu) (base : Z) (env : nat -> Z -> st -> st).
Variables (gcc : bool) (conv : Z) (k : consts) (r : passinfo) (ps : list passinfo).
Variables (vf : bool) (rk : rkind) (pks : list pkind) (s0 : st) (PL : list asm).
Hypothesis Hu : fpu_ok u.
Hypothesis Hc : cls conv r ps vf rk pks.
Hypothesis He : entry env s0.
Local Notation S0 := (rg s0 ESP).
Local Notation B := (S0 - 8).
Local Notation T := (total pks).
Local Notation N := (Z.of_nat (rsize rk)).
Local Notation d := (if gcc || vf then 0 else -4).
Local Notation RS := (GetParamStackSize r).
Local Notation cls := (Jit32Frame.cls conv r ps vf rk pks).
Local Notation entry := (Jit32Frame.entry env s0).
Local Notation bot := (Jit32Frame.bot gcc conv r ps s0).
Local Notation E := (Jit32Frame.E gcc conv r ps s0).
Local Notation the_vars := (Jit32Frame.the_vars gcc conv r ps s0).
Local Notation the_iface := (Jit32Frame.the_iface k).
Local Notation fm := (Jit32Frame.fm gcc vf s0).
Local Notation keep := (Jit32Frame.keep gcc vf rk pks s0).
Local Notation inv := (Jit32Frame.inv gcc conv r ps vf rk pks s0).
Local Notation frame0_is := (Jit32Frame.frame0_is gcc conv r ps vf rk pks Hc).
Local Notation vars_are := (Jit32Frame.vars_are gcc conv r ps vf rk pks Hc).
Local Notation ret_size := (Jit32Frame.ret_size conv r ps vf rk pks Hc).
Local Notation ret_facts := (Jit32Frame.ret_facts conv r ps vf rk pks Hc).
Local Notation retmem := (Jit32Frame.retmem conv r ps vf rk pks Hc).
Local Notation memtmp := (Jit32Frame.memtmp conv r ps vf rk pks Hc).
Local Notation ret_vars := (Jit32Frame.ret_vars gcc conv r ps vf rk pks Hc).
Local Notation void_vars := (Jit32Frame.void_vars gcc conv r ps vf rk pks Hc).
Local Notation frame_is := (Jit32Frame.frame_is gcc conv r ps vf rk pks Hc).
Local Notation d_is := (Jit32Frame.d_is gcc vf).
Local Notation f1_is := (Jit32Frame.f1_is gcc conv r ps vf rk pks Hc).
Local Notation this_off := (Jit32Frame.this_off gcc conv r ps vf rk pks Hc).
Local Notation base_is := (Jit32Frame.base_is gcc conv r ps vf rk pks s0 Hc).
Local Notation E_is := (Jit32Frame.E_is gcc conv r ps s0).
Local Notation S_ok := (Jit32Frame.S_ok env s0 He).
Local Notation T_ok := (Jit32Frame.T_ok conv r ps vf rk pks Hc).
Local Notation bot_is := (Jit32Frame.bot_is gcc conv r ps vf rk pks s0 Hc).
Local Notation E_range := (Jit32Frame.E_range env gcc conv r ps vf rk pks s0 Hc He).
Local Notation base0_is := (Jit32Frame.base0_is gcc vf rk s0).
Local Notation shared_iff := (Jit32Frame.shared_iff gcc conv r ps vf rk pks s0 Hc).
Local Notation own_dec := (Jit32Frame.own_dec gcc conv r ps vf rk pks s0 Hc).
Local Notation own_stack := (Jit32Frame.own_stack env gcc conv r ps vf rk pks s0 Hc He).
Local Notation own_top := (Jit32Frame.own_top env gcc conv r ps vf rk pks s0 Hc He).
Local Notation own_ctx := (Jit32Frame.own_ctx env gcc conv r ps vf rk pks s0 Hc He).
Local Notation own_ret := (Jit32Frame.own_ret env gcc conv r ps vf rk pks s0 Hc He).
Local Notation own_plugin := (Jit32Frame.own_plugin env gcc conv r ps vf rk pks s0 Hc He).
Local Notation own_pad := (Jit32Frame.own_pad env gcc conv r ps vf rk pks s0 Hc He).
Local Notation own_argptr := (Jit32Frame.own_argptr env gcc conv r ps vf rk pks s0 Hc He).
Local Notation not_own_vars := (Jit32Frame.not_own_vars gcc conv r ps vf rk pks s0 Hc).
Local Notation not_own_oret := (Jit32Frame.not_own_oret gcc conv r ps vf rk pks s0 Hc).
Local Notation not_own_over := (Jit32Frame.not_own_over gcc conv r ps vf rk pks s0 Hc).
Local Notation not_own_buf := (Jit32Frame.not_own_buf gcc conv r ps vf rk pks s0 Hc).
Local Notation the_separate := (Jit32Frame.the_separate env gcc conv r ps vf rk pks s0 Hc He).
Local Notation agree_refl := (Jit32Frame.agree_refl gcc conv r ps vf rk pks s0).
Local Notation agree_trans := (Jit32Frame.agree_trans gcc conv r ps vf rk pks s0).
Local Notation agree_sto := (Jit32Frame.agree_sto gcc conv r ps vf rk pks s0).
Local Notation agree_own := (Jit32Frame.agree_own gcc conv r ps vf rk pks s0).
Local Notation agree_out := (Jit32Frame.agree_out gcc conv r ps vf rk pks s0).
Local Notation ld_agree := (Jit32Frame.ld_agree gcc conv r ps vf rk pks s0).
Local Notation depth_is := (Jit32Frame.depth_is rk pks).
Local Notation agree_push := (Jit32Frame.agree_push env gcc conv r ps vf rk pks s0 Hc He).
Local Notation returned_dec := (Jit32Frame.returned_dec env gcc conv r ps vf rk pks s0 Hc He).
Local Notation call_W := (Jit32Frame.call_W u base env gcc conv r ps vf rk pks s0 PL Hc He).
Local Notation keep_top := (Jit32Frame.keep_top env gcc conv r ps vf rk pks s0 Hc He).
Local Notation keep_sto := (Jit32Frame.keep_sto gcc vf rk pks s0).
Local Notation keep_place := (Jit32Frame.keep_place env gcc conv r ps vf rk pks s0 Hc He).
Local Notation keep_out := (Jit32Frame.keep_out gcc vf rk pks s0).
Local Notation fm_above := (Jit32Frame.fm_above env gcc conv r ps vf rk pks s0 Hc He).
Local Notation okg := (Jit32Frame.okg env s0 He).
Local Notation keep0 := (Jit32Frame.keep0 gcc vf rk s0).
Local Notation keep0_regs := (Jit32Frame.keep0_regs env gcc conv r ps vf rk pks s0 Hc He).
Local Notation call_but_W := (Jit32Frame.call_but_W u base env gcc conv r ps vf rk pks s0 PL Hc He).
Local Notation keep_regs := (Jit32Frame.keep_regs env gcc conv r ps vf rk pks s0 Hc He).
Local Notation keep_target := (Jit32Frame.keep_target env gcc conv r ps vf rk pks s0 Hc He).
Local Notation keep0_target := (Jit32Frame.keep0_target env gcc conv r ps vf rk pks s0 Hc He).
Local Notation memret_off := (Jit32Frame.memret_off gcc conv r ps vf rk pks Hc).
Local Notation hid_ok := (Jit32Frame.hid_ok rk).
Local Notation small_ret := (Jit32Frame.small_ret conv r ps vf rk pks Hc).
Local Notation void_dec := (Jit32Frame.void_dec rk).
Local Notation mem_void := (Jit32Frame.mem_void rk).
Local Notation hid := (if in_mem rk then 4 else 0).
Local Notation own := (Jit32HookSpec.own gcc vf pks rk s0 the_vars).
Local Notation agree := (Jit32HookSpec.agree gcc vf pks rk s0 the_vars).
Local Notation W := (W u base env PL outcome).
Local Notation call := (Jit32HookSpec.call gcc vf pks rk s0 the_vars E).
Local Notation call_but := (Jit32HookSpec.call_but gcc vf pks rk s0 the_vars E).
Local Notation plug := (Jit32HookSpec.plug rk the_vars).
Ltac nums :=
  pose proof d_is as Nd; pose proof f1_is as Nf; pose proof E_range as [Ne Nem]; pose proof S_ok as Ns; pose proof T_ok as Nt; pose proof ret_facts as Nr;
  pose proof vars_are as (Nv1 & Nv2 & Nv3 & Nv4 & Nv5); pose proof base_is as Nb; pose proof base0_is as Nb0; pose proof this_off as Nth; pose proof depth_is as Ndp; pose proof hid_ok as Nh.

(** Between calls: [a] in eax, [m] the memory as others see it, [mem] the memory, [ctx] the IHookContext *)
Definition at_ease (s : st) (a : Z) (m mem : Z -> Z) (ctx : Z) : Prop :=
  exists c dx b df, is s (R8 a c dx b E B (rg s0 ESI) (rg s0 EDI)) [] df mem /\ agree m mem /\ keep mem /\ ld4 mem (B + v_pContext gcc conv) = ctx.
Definition same_own (mem mem' : Z -> Z) : Prop := forall x, own x -> E <= x -> mem' x = mem x.
Lemma own_word_ctx x : B + v_pContext gcc conv <= x < B + v_pContext gcc conv + 4 -> own x /\ E <= x.
Proof. intros Hx. nums. split; [apply own_ctx; lia|lia]. Qed.
Lemma ctx_same mem mem' ctx : same_own mem mem' -> ld4 mem (B + v_pContext gcc conv) = ctx -> ld4 mem' (B + v_pContext gcc conv) = ctx.
Proof.
  intros H <-. nums. apply ld4_ext; [lia|unfold W32 in *; lia|]. intros x Hx. destruct (own_word_ctx x Hx). apply H; assumption.
Qed.

(** ** A call of a function of the IHookContext *)
Definition loads (i : Z) (l : list asm) : Prop :=
  forall l' s R f df m tr (F : sys), is s R f df m -> (forall s', is s' (setr R 0 (ld4 m (w32 (ra R + 4 * i)))) f df m -> W l' s' tr F) -> W (l ++ l') s tr F.
Lemma loads0 : loads 0 [AMov_Reg_Rm EAX EAX MOD_MEM_REG].
Proof.
  intros l' s R f df m tr F I K. unreg. cbn [app]. eapply (X_mov_rm _ _ _ _ _ _ _ _ _ _ _ _ _ I); [lia|lia|lia|lia|]. intros s1 I1. apply K.
  pose proof (is_get _ _ _ _ _ 0 I ltac:(lia)) as Ok. change (getr R 0) with (ra R) in *. replace (ra R + 4 * 0) with (ra R) by lia. rewrite w32_small by exact Ok. exact I1.
Qed.
Lemma loads1 : loads 1 [AMov_Reg_Rm_DispAuto EAX EAX 4].
Proof.
  intros l' s R f df m tr F I K. unreg. cbn [app]. eapply (X_load _ _ _ _ _ _ _ _ _ _ _ _ _ I); [lia|lia|lia|lia|lia|reflexivity|]. exact K.
Qed.
Lemma loads3 : loads 3 [AMov_Reg_Rm_Disp8 EAX EAX 12].
Proof.
  intros l' s R f df m tr F I K. unreg. cbn [app]. eapply (X_load8 _ _ _ _ _ _ _ _ _ _ _ _ _ I); [lia|lia|lia|lia|reflexivity|]. exact K.
Qed.
Lemma arg_at e R df m j y : is e R [] df m -> rsp R + 4 + 4 * Z.of_nat j = y -> 0 <= y < W32 -> arg e j = ld4 m y.
Proof.
  intros I Hy Hr. unfold arg. destruct I as (G & _ & _ & -> & _). unfold ESP. rewrite (G 4) by lia. change (getr R 4) with (rsp R).
  rewrite (w32_is _ y Hy Hr). reflexivity.
Qed.
Lemma ctx_W i ent s a m mem ctx l tr (K : event -> sys) :
  loads i ent -> at_ease s a m mem ctx ->
  (forall e s' mem', at_ease s' (eax e) (after e) mem' ctx -> same_own mem mem' -> W l s' (tr ++ [e]) (K e)) ->
  W (ctx_call gcc conv ent ++ l) s tr (call (virt_sig gcc) m (virt gcc ctx i) K).
Proof.
  intros Hl (c & dx & b & df & I & Ag & Kp & Cx) HK. nums. unfold ctx_call, push_this, pop_this. rewrite <- !app_assoc.
  remember (S0 - 8) as bp eqn:Hbp. cbn [app].
  go. rewrite Cx in *. pose proof (is_ok _ _ _ _ _ I0) as (_ & Okc & _). regs_cbn.
  assert (Dg : gcc = true \/ gcc = false) by (destruct gcc; auto). destruct Dg as [Dg|Dg].
  - set (l2 := ACall_Reg 0 :: _).
    assert (X : W (APush_Reg 1 :: AMov_Reg_Rm 0 1 0 :: ent ++ ACall_Reg 0 :: APop_Reg 1 :: l) s1 tr (call (virt_sig gcc) m (virt gcc ctx i) K)).
    { go. go. eapply Hl; [eassumption|]. intros s4 I4. regs_cbn. set (mem1 := st4 mem (E - 4) ctx) in *.
      assert (Ag1 : agree m mem1) by (apply agree_push; [rewrite depth_is; unreg; lia|lia|exact Ag]).
      eapply (call_W (virt_sig gcc) m _ _ 0 _ s4 tr _ _ _ mem1 I4); unfold virt_sig; cbn [c_args c_pop c_align c_float]; regs_cbn; replace (if gcc then 4 else 0) with 4 by (rewrite Dg; reflexivity); unreg; try lia.
      - modlia.
      - exact Ag1.
      - apply agree_refl.
      - intros e v Te Ie. split; [exact Te|]. unfold this. replace (if gcc then arg (e_in e) 0 else rg (e_in e) ECX) with (arg (e_in e) 0) by (rewrite Dg; reflexivity). rewrite (arg_at (e_in e) _ _ _ 0 (E - 4) Ie) by (regs_cbn; unfold W32 in *; lia). regs_cbn.
        rewrite ld4_diff by (unfold W32 in *; lia). apply ld4_same; [lia|unfold W32 in *; lia|exact Okc].
      - intros e a1 c1 dx1 f1 df1 m1 I5 Ea Eb _ _ Ef So. regs_cbn. replace f1 with (@nil Z) in I5 by (destruct f1; [reflexivity|discriminate Ef]).
        replace (E - 4 + 0) with (E - 4) in I5 by lia. go. apply (HK e _ m1).
        + rewrite Eb, Ea. eexists _, _, _, _. split; [subst bp; eassumption|]. split; [apply agree_refl|].
          assert (So1 : same_own mem m1). { intros x Ox Ex. rewrite So by assumption. unfold mem1. apply st4_out; unfold W32 in *; lia. }
          split; [apply (keep_top mem m1 Kp So1)|]. apply (ctx_same mem m1 ctx So1). subst bp. exact Cx.
        + intros x Ox Ex. rewrite So by assumption. unfold mem1. apply st4_out; unfold W32 in *; lia. }
    unfold l2. rewrite Dg in X |- *. exact X.
  - set (l2 := ACall_Reg 0 :: _).
    assert (X : W (AMov_Reg_Rm 0 1 0 :: ent ++ ACall_Reg 0 :: l) s1 tr (call (virt_sig gcc) m (virt gcc ctx i) K)).
    { go. eapply Hl; [eassumption|]. intros s4 I4. regs_cbn.
      eapply (call_W (virt_sig gcc) m _ _ 0 _ s4 tr _ _ _ mem I4); unfold virt_sig; cbn [c_args c_pop c_align c_float]; regs_cbn; replace (if gcc then 4 else 0) with 0 by (rewrite Dg; reflexivity); unreg; try lia.
      - modlia.
      - exact Ag.
      - apply agree_refl.
      - intros e v Te Ie. split; [exact Te|]. unfold this. rewrite Dg. destruct Ie as (G & _). unfold ECX. rewrite (G 1) by lia. reflexivity.
      - intros e a1 c1 dx1 f1 df1 m1 I5 Ea Eb _ _ Ef So. regs_cbn. replace f1 with (@nil Z) in I5 by (destruct f1; [reflexivity|discriminate Ef]).
        replace (E + 0) with E in I5 by lia. apply (HK e _ m1); [|exact So].
        rewrite Eb, Ea. eexists _, _, _, _. split; [subst bp; eassumption|]. split; [apply agree_refl|].
        split; [apply (keep_top mem m1 Kp So)|]. apply (ctx_same mem m1 ctx So). subst bp. exact Cx. }
    unfold l2. rewrite Dg in X |- *. exact X.
Qed.
Lemma loads2 : loads 2 [AMov_Reg_Rm_DispAuto EAX EAX 8].
Proof.
  intros l' s R f df m tr F I K. unreg. cbn [app]. eapply (X_load _ _ _ _ _ _ _ _ _ _ _ _ _ I); [lia|lia|lia|lia|lia|reflexivity|]. exact K.
Qed.

(** ** Alignment *)
Lemma before_W n s a c dx b sp bp si di f df m l tr (F : sys) : is s (R8 a c dx b sp bp si di) f df m -> 0 <= n < 128 -> n <= sp ->
  (forall s', is s' (R8 a c dx b (sp - n) bp si di) f df m -> W l s' tr F) -> W (AlignBefore n ++ l) s tr F.
Proof.
  intros I Hn Hs K. unfold AlignBefore. pose proof (is_ok _ _ _ _ _ I) as (_ & _ & _ & _ & Ok & _). regs_cbn. unfold okr in Ok.
  destruct (Z.eqb_spec n 0) as [-> |Nz]; cbn [app].
  - apply K. replace (sp - 0) with sp by lia. exact I.
  - unreg. eapply (X_sub_esp _ _ _ _ _ _ _ _ _ _ _ _ _ I _ n (sp - n)); [reflexivity|cbn [asm_ok]; unfold rm_ok, int32_ok; lia|regs_cbn; apply w32_is; lia|]. exact K.
Qed.
Lemma after_W n s a c dx b sp bp si di f df m l tr (F : sys) : is s (R8 a c dx b (sp - n) bp si di) f df m -> 0 <= n < 2 ^ 16 -> 0 <= sp < W32 ->
  (forall s', is s' (R8 a c dx b sp bp si di) f df m -> W l s' tr F) -> W (AlignAfter n ++ l) s tr F.
Proof.
  intros I Hn Hs K. unfold AlignAfter. destruct (Z.eqb_spec n 0) as [-> |Nz]; cbn [app].
  - apply K. replace (sp - 0) with sp in I by lia. exact I.
  - unreg. eapply (X_add_esp _ _ _ _ _ _ _ _ _ _ _ _ _ I _ n sp); [reflexivity|cbn [asm_ok]; unfold rm_ok, int32_ok; lia|regs_cbn; apply w32_is; lia|]. exact K.
Qed.

(** ** Passing on the parameters *)
Lemma copied_from l m1 m2 a m' b : 0 <= a -> a + total l <= W32 -> (forall x, a <= x < a + total l -> m1 x = m2 x) -> copied l m1 a m' b -> copied l m2 a m' b.
Proof.
  clear. revert a b. induction l as [|q l IH]; intros a b H0 H1 H C; [exact Logic.I|]. rewrite total_cons in *. destruct C as [C1 C2].
  pose proof (total_pos l). pose proof (slot_ge q) as [Sg _]. split.
  - destruct (pk_float q).
    + rewrite C1. f_equal. apply ld_ext; [lia|lia|]. intros x Hx. apply H. lia.
    + intros j Hj. rewrite C1 by exact Hj. apply H. lia.
  - apply IH; [lia|lia| |exact C2]. intros x Hx. apply H. lia.
Qed.
Lemma keep_params m x : keep m -> base0 gcc vf rk s0 <= x < base0 gcc vf rk s0 + T -> m x = mm s0 x.
Proof.
  intros H Hx. nums. rewrite H, fm_above; [reflexivity| |]; rewrite Nb0 in *; destruct (gcc || vf); lia.
Qed.
Lemma params_W c s a cc dx b sp df mem l tr (F : sys) :
  is s (R8 a cc dx b sp B (rg s0 ESI) (rg s0 EDI)) [] df mem -> keep mem -> S0 - 4300 - 3 * RS <= sp <= E ->
  (forall s' cc' dx' b' df' mem', is s' (R8 a cc' dx' b' (sp - T) B (rg s0 ESI) (rg s0 EDI)) [] df' mem' ->
     (forall x, ~ (sp - T - 8 <= x < sp) -> mem' x = mem x) -> copied pks (mm s0) (base0 gcc vf rk s0) mem' (sp - T) -> W l s' tr F) ->
  W (pp_list gcc conv r ps c ++ l) s tr F.
Proof.
  intros I Kp Hs HK. nums. assert (Nbb : 4 <= base0 gcc vf rk s0 - S0 <= 12) by (rewrite Nb0; destruct (gcc || vf); lia).
  unfold pp_list, PushParams. eapply push_params_W; [exact Hu|apply Hc|exact I|lia|lia|lia|unfold W32 in *; lia|lia|lia|].
  intros s' cc' dx' b' df' mem' I' O' C'. eapply HK; [exact I'|exact O'|]. rewrite Nb in C'. eapply copied_from; [| | |exact C'].
  - lia.
  - unfold W32 in *; lia.
  - intros x Hx. apply keep_params; assumption.
Qed.
Lemma pp_size_is c : pp_size gcc conv r ps c = T.
Proof. unfold pp_size, PushParams. apply push_params_size. apply Hc. Qed.
Lemma stack_is : GetParamsTotalStackSize ps = T.
Proof. nums. apply total_stack; [apply Hc|lia]. Qed.
Lemma mr_is v : mr_list gcc conv r v = (if in_mem rk then [ALea_DispRegImmAuto EDX EBP v; APush_Reg EDX] else []) /\
  mr_size gcc conv r v = (if gcc then 0 else hid).
Proof. unfold mr_list, mr_size, PushMemRetPtr. rewrite retmem, memtmp. destruct (in_mem rk), gcc; split; reflexivity. Qed.
Lemma mr_W v s a c dx b sp df mem l tr (F : sys) :
  is s (R8 a c dx b sp B (rg s0 ESI) (rg s0 EDI)) [] df mem -> 4 <= sp -> - 2 ^ 15 <= v <= 0 ->
  (forall s' dx' mem', is s' (R8 a c dx' b (sp - hid) B (rg s0 ESI) (rg s0 EDI)) [] df mem' -> (forall x, ~ (sp - 4 <= x < sp) -> mem' x = mem x) ->
     (in_mem rk = true -> ld4 mem' (sp - 4) = B + v) -> W l s' tr F) ->
  W (mr_list gcc conv r v ++ l) s tr F.
Proof.
  intros I Hs Hv HK. nums. rewrite (proj1 (mr_is v)). pose proof (is_ok _ _ _ _ _ I) as (_ & _ & _ & _ & Os & _). regs_cbn. unfold okr in Os.
  remember (S0 - 8) as bp eqn:Hbp. destruct (in_mem rk) eqn:Im; cbn [app].
  - assert (Ob : okr (bp + v)) by (unfold okr, W32 in *; lia). go. go. eapply HK; [eassumption| |].
    + intros x Hx. apply st4_out; unfold W32 in *; lia.
    + intros _. apply ld4_same; [lia|unfold W32 in *; lia|exact Ob].
  - eapply (HK s dx mem); [replace (sp - 0) with sp by lia; exact I|reflexivity|discriminate].
Qed.
Lemma destroy_nil : DestroyParams gcc conv r ps = [].
Proof.
  unfold DestroyParams. assert (X : forall l q fb, Forall2 param_class l q -> destroy_fbr gcc conv r ps fb l = []).
  { intros l q fb Hp. revert fb. induction Hp as [|p1 q1 ps' qs (Hf & _) _ IH]; intros fb; [reflexivity|]. cbn [destroy_fbr]. rewrite Hf, IH, !andb_false_r. reflexivity. }
  apply (X ps pks). apply Hc.
Qed.

(** ** Storing the result *)
Lemma ld_low m n a : bytes_ok m -> 0 <= a -> a + 4 <= W32 -> (n <= 4)%nat -> ld m a n = ld4 m a mod 256 ^ Z.of_nat n.
Proof.
  clear. intros Hb Ha Hw Hn. unfold ld4.
  assert (X : forall q a', 0 <= a' -> a' + Z.of_nat n + Z.of_nat q <= W32 -> ld m a' (n + q) = ld m a' n + 256 ^ Z.of_nat n * ld m (a' + Z.of_nat n) q).
  { clear a Ha Hw Hn. induction n as [|n IH]; intros q a Ha Hw; [cbn [ld Nat.add Z.of_nat]; rewrite Z.add_0_r; lia|]. cbn [ld Nat.add].
    rewrite IH by lia. replace (a + 1 + Z.of_nat n) with (a + Z.of_nat (S n)) by lia. rewrite Nat2Z.inj_succ, Z.pow_succ_r by lia. lia. }
  replace 4%nat with (n + (4 - n))%nat by lia. rewrite X by lia. rewrite Z.mul_comm, Z.mod_add by (apply Z.pow_nonzero; lia).
  symmetry. apply Z.mod_small. apply ld_range. exact Hb.
Qed.
Lemma ld8_split m a : 0 <= a -> a + 8 <= W32 -> ld m a 8 = ld4 m a + W32 * ld4 m (a + 4).
Proof.
  clear. intros Ha Hw. unfold ld4. cbn [ld]. replace (a + 1 + 1 + 1 + 1) with (a + 4) by lia. unfold W32. lia.
Qed.
Lemma save_W v s c b f df m e l tr (F : sys) :
  is s (R8 (rg (e_out e) EAX) c (rg (e_out e) EDX) b E B (rg s0 ESI) (rg s0 EDI)) f df m -> after e = m -> fp (e_out e) = f ->
  length f = (if res_float rk then 1%nat else 0%nat) -> v = v_plugin_ret gcc conv r \/ v = v_orig_ret gcc conv r ->
  (forall s' m', is s' (R8 (rg (e_out e) EAX) c (rg (e_out e) EDX) b E B (rg s0 ESI) (rg s0 EDI)) [] df m' ->
     (forall x, ~ (B + v <= x < B + v + RS) -> m' x = m x) -> ld m' (B + v) (rsize rk) = result u rk (B + v) e -> W l s' tr F) ->
  W (SaveRetVal gcc conv r v ++ l) s tr F.
Proof.
  intros I Hm Hf Hl Hv HK. nums. pose proof ret_size as Rs.
  pose proof void_dec as Dr.
  destruct Dr as [Dr|Dr].
  - (* nothing *)
    destruct Hc as (_ & _ & (_ & _ & C) & _). rewrite Dr in *. destruct C as (C1 & C2 & C3 & C4). destruct f as [|? ?]; [|discriminate Hl].
    unfold SaveRetVal, GetRealSize. rewrite C3, C1. cbn [Z.eqb app]. apply (HK s m); [exact I|reflexivity|reflexivity].
  - destruct (ret_vars Dr) as (_ & V1 & _ & V2 & _).
    assert (Vr : d - 28 - 3 * RS <= v /\ v + RS <= d - 28 /\ v <> 0) by (destruct Hv as [-> | -> ]; lia). clear V1 V2 Hv.
    assert (Bd : 0 <= B + v /\ B + v + 8 <= W32) by (unfold W32 in *; lia).
    remember (S0 - 8) as bp eqn:Hbp.
    assert (One : forall n, RS = 4 -> rsize rk = n -> (n <= 4)%nat -> rk = RInt n -> f = [] -> W (AMov_Rm_Reg_DispAuto EBP EAX v :: l) s tr F).
    { intros n R4 En Hn Ek Ef. subst f. rewrite Ef in *. go. eapply HK; [eassumption| |].
      - intros x Hx. apply st4_out; lia.
      - rewrite En. rewrite ld_low by (try assumption; try lia; eapply is_bytes; eassumption). unfold ld4, st4. rewrite ld_sto_mod by lia.
        unfold result. rewrite Ek. change (256 ^ Z.of_nat 4) with W32. unreg.
        assert (Dv : (256 ^ Z.of_nat n | W32)) by (exists (256 ^ (4 - Z.of_nat n)); change W32 with (256 ^ 4); rewrite <- Z.pow_add_r by lia; f_equal; lia).
        rewrite <- Znumtheory.Zmod_div_mod by (try assumption; try (apply Z.pow_pos_nonneg; lia); reflexivity).
        symmetry. rewrite Z.add_mod by (apply Z.pow_nonzero; lia). destruct Dv as (z & ->). rewrite (Z.mul_shuffle0 z).
        rewrite Z.mod_mul by (apply Z.pow_nonzero; lia). rewrite Z.add_0_r, Z.mod_mod by (apply Z.pow_nonzero; lia). reflexivity. }
    unfold SaveRetVal. rewrite retmem, memtmp. cbn [negb]. rewrite andb_true_r.
    assert (Rz : (GetRealSize r =? 0) = false). { destruct (Z.eqb_spec (GetRealSize r) 0) as [Z0|Z0]; [|reflexivity]. exfalso. revert Rs. unfold GetParamStackSize. rewrite Z0. change (AlignSize 0 4) with 0. destruct rk; [contradiction| | |]; lia. }
    rewrite Rz. destruct Hc as (_ & _ & (_ & _ & C) & _).
    destruct rk as [|n|n|n] eqn:Ek; [contradiction| | |]; cbn [rsize in_mem app] in *.
    + destruct C as [(C1 & C2 & -> & C3)|(C1 & C2 & C3 & C4 & C5 & C6)]; rewrite C1.
      * cbn [app]. apply (One 4%nat); try reflexivity; try lia; destruct f; [reflexivity|discriminate Hl].
      * match goal with |- context [if pi_type r =? PassType_Float then ?x else if pi_type r =? PassType_Basic then ?y else ?z] =>
          replace (if pi_type r =? PassType_Float then x else if pi_type r =? PassType_Basic then y else z) with y by (destruct C3 as [-> |[-> ->]]; reflexivity) end.
        unfold save_regs, GetRealSize. rewrite C2, C5.
        assert (D : (n <= 4)%nat \/ n = 8%nat) by lia. destruct D as [D|D].
        -- destruct (Z.leb_spec (Z.of_nat n) 4); [|lia]. cbn [app]. apply (One n); try reflexivity; try lia; destruct f; [reflexivity|discriminate Hl].
        -- subst n. cbn [app Z.leb Z.compare Z.of_nat Pos.of_succ_nat Pos.succ Pos.compare Pos.compare_cont].
           replace f with (@nil Z) in I by (destruct f; [reflexivity|discriminate Hl]).
           assert (R8' : RS = 8) by (unfold GetParamStackSize, GetRealSize; rewrite C2, C5; reflexivity).
           pose proof (is_ok _ _ _ _ _ I) as (Oa & _ & Od & _). regs_cbn.
           unreg. go. go. eapply HK; [eassumption| |].
           ++ intros x Hx. rewrite !st4_out by lia. reflexivity.
           ++ rewrite ld8_split by lia. replace (bp + v + 4) with (bp + (v + 4)) by lia. rewrite ld4_same by (try assumption; lia).
              rewrite ld4_diff, ld4_same by (try assumption; lia). cbn [result]. unreg. symmetry. apply Z.mod_small. unfold okr, W32 in *.
              change (256 ^ Z.of_nat 8) with (2 ^ 64). lia.
    + destruct C as (C1 & C2 & C3 & C4 & C5 & C6). rewrite C1, C3. cbn [Z.eqb Pos.eqb PassType_Basic PassType_Float]. unfold GetRealSize. rewrite C2, C5.
      destruct f as [|z [|? ?]]; [discriminate Hl| |discriminate Hl].
      assert (Fin : forall s', is s' (R8 (rg (e_out e) 0) c (rg (e_out e) 2) b E bp (rg s0 6) (rg s0 7)) [] df (sto m (bp + v) n (fstore u n z)) -> W l s' tr F).
      { intros s' I'. eapply HK; [exact I'| |].
        - intros x Hx. apply sto_out; lia.
        - rewrite ld_sto_same by (try apply Hu; lia). cbn [result]. rewrite Hf. reflexivity. }
      destruct C6 as [-> | -> ]; cbn [Z.of_nat Pos.of_succ_nat Pos.succ Z.eqb Pos.eqb app].
      * unreg. eapply (X_fstp _ _ _ _ _ _ _ _ _ _ _ _ _ I 4%nat _ 5 v (bp + v)); [reflexivity|cbn [asm_ok]; unfold base_ok, reg_ok, int32_ok; lia|lia|reflexivity|regs_cbn; apply w32_is; lia|]. exact Fin.
      * unreg. eapply (X_fstp _ _ _ _ _ _ _ _ _ _ _ _ _ I 8%nat _ 5 v (bp + v)); [reflexivity|cbn [asm_ok]; unfold base_ok, reg_ok, int32_ok; lia|lia|reflexivity|regs_cbn; apply w32_is; lia|]. exact Fin.
    + destruct C as (C1 & C2 & C3 & C4 & _). rewrite C1.
      destruct f as [|? ?]; [|discriminate Hl]. apply (HK s m); [exact I|reflexivity|]. cbn [result]. rewrite Hm. reflexivity.
Qed.

(** ** Writing below the frame *)
Definition below (mem mem' : Z -> Z) : Prop := forall x, ~ (S0 - depth pks rk <= x < E) -> mem' x = mem x.
Lemma below_refl mem : below mem mem.
Proof. intros x _. reflexivity. Qed.
Lemma below_trans m1 m2 m3 : below m1 m2 -> below m2 m3 -> below m1 m3.
Proof. intros H K x Hx. rewrite K, H by exact Hx. reflexivity. Qed.
Lemma below_by lo hi m1 m2 : (forall x, ~ (lo <= x < hi) -> m2 x = m1 x) -> S0 - depth pks rk <= lo -> hi <= E -> below m1 m2.
Proof. intros H L1 L2 x Hx. apply H. lia. Qed.
Lemma below_agree m m1 m2 : below m1 m2 -> agree m m1 -> agree m m2.
Proof. intros H. apply agree_out. intros x Hx. apply H. intros K. apply Hx. apply own_stack. exact K. Qed.
Lemma below_own m1 m2 : below m1 m2 -> same_own m1 m2.
Proof. intros H x _ Hx. apply H. lia. Qed.
Lemma below_keep m1 m2 : below m1 m2 -> keep m1 -> keep m2.
Proof. intros H K. nums. apply (keep_out m1 m2 K). intros x Hx. apply H. lia. Qed.
Lemma push_if (t : bool) q v s a c dx b sp bp si di df mem l tr (F : sys) :
  is s (R8 a c dx b sp bp si di) [] df mem -> 0 <= q < 8 -> getr (R8 a c dx b sp bp si di) q = v -> 4 <= sp ->
  (forall s' mem', is s' (R8 a c dx b (sp - (if t then 4 else 0)) bp si di) [] df mem' -> (forall x, ~ (sp - 4 <= x < sp) -> mem' x = mem x) ->
     (t = true -> ld4 mem' (sp - 4) = v) -> W l s' tr F) ->
  W ((if t then [APush_Reg q] else []) ++ l) s tr F.
Proof.
  intros I Hq Hv Hs HK. destruct t; cbn [app].
  - pose proof (is_get _ _ _ _ _ q I Hq) as Ok. rewrite Hv in Ok. pose proof (is_ok _ _ _ _ _ I) as (_ & _ & _ & _ & Os & _). regs_cbn. unfold okr in Os.
    eapply (X_push _ _ _ _ _ _ _ _ _ _ _ _ _ I q (sp - 4)); [exact Hq|regs_cbn; apply w32_is; lia|]. intros s1 I1. regs_cbn. rewrite Hv in I1. apply (HK s1 _ I1).
    + intros x Hx. apply st4_out; lia.
    + intros _. apply ld4_same; [lia|lia|exact Ok].
  - apply (HK s mem); [replace (sp - 0) with sp by lia; exact I|reflexivity|discriminate].
Qed.
Lemma buf_W (fmt : list asm) n s a c dx b sp df mem l tr (F : sys) :
  is s (R8 a c dx b sp B (rg s0 ESI) (rg s0 EDI)) [] df mem -> S0 - 4300 - 3 * RS <= sp <= E ->
  n = 4 /\ fmt = [] \/ n = 8 /\ fmt = [APush_Imm32 (k_fmt k)] /\ int32_ok (k_fmt k) ->
  (forall s' c' mem', is s' (R8 a c' dx b (sp - (if vf then n else 0)) B (rg s0 ESI) (rg s0 EDI)) [] df mem' -> (forall x, ~ (sp - 8 <= x < sp) -> mem' x = mem x) ->
     (vf = true -> ld4 mem' (sp - 4) = B + v_va_buf gcc conv r ps /\ (n = 8 -> ld4 mem' (sp - 8) = w32 (k_fmt k))) -> W l s' tr F) ->
  W ((if HasVafmt conv then ALea_DispRegImmAuto ECX EBP (v_va_buf gcc conv r ps) :: APush_Reg ECX :: fmt else []) ++ l) s tr F.
Proof.
  intros I Hs Hf HK. nums. destruct frame_is as (Fb & _). replace (HasVafmt conv) with vf by (symmetry; apply Hc).
  assert (Vb : vf = true -> -4200 - 3 * RS <= v_va_buf gcc conv r ps <= 0) by (intros V; rewrite Fb, V; lia). clear Fb.
  remember (S0 - 8) as bp eqn:Hbp.
  assert (Dv : vf = true \/ vf = false) by (destruct vf; auto). destruct Dv as [Dv|Dv].
  - assert (X : W (ALea_DispRegImmAuto ECX EBP (v_va_buf gcc conv r ps) :: APush_Reg ECX :: fmt ++ l) s tr F); [|rewrite Dv; exact X].
    specialize (Vb Dv). go. go. assert (Ob : okr (bp + v_va_buf gcc conv r ps)) by (unfold okr, W32 in *; lia).
    destruct Hf as [[-> ->]|(-> & -> & Ok)]; cbn [app].
    + eapply HK; [replace (if vf then 4 else 0) with 4 by (rewrite Dv; reflexivity); eassumption| |].
      * intros x Hx. apply st4_out; unfold W32 in *; lia.
      * intros _. split; [|lia]. apply ld4_same; [lia|unfold W32 in *; lia|exact Ob].
    + go. eapply HK; [replace (if vf then 8 else 0) with 8 by (rewrite Dv; reflexivity); eassumption| |].
      * intros x Hx. rewrite !st4_out by (unfold W32 in *; lia). reflexivity.
      * intros _. split; [|intros _; apply ld4_same; [lia|unfold W32 in *; lia|apply w32_ok]].
        rewrite ld4_diff by (unfold W32 in *; lia). apply ld4_same; [lia|unfold W32 in *; lia|exact Ob].
  - assert (X : W l s tr F); [|rewrite Dv; exact X]. apply (HK s c mem).
    + replace (if vf then n else 0) with 0 by (rewrite Dv; reflexivity). replace (sp - 0) with sp by lia. exact I.
    + reflexivity.
    + rewrite Dv. discriminate.
Qed.

(** ** A handler is called *)
Local Notation handler_sig := (Jit32HookSpec.handler_sig gcc vf pks rk).
Lemma handler_W c s a m mem ctx l tr (K : event -> sys) :
  at_ease s a m mem ctx ->
  (forall e s' mem' a', at_ease s' a' (after e) mem' ctx -> (rk <> RVoid -> ld mem' (B + v_plugin_ret gcc conv r) (rsize rk) = result u rk (B + v_plugin_ret gcc conv r) e) -> W l s' (tr ++ [e]) (K e)) ->
  W (hk_push gcc conv r ps c ++ hk_target gcc conv r ++ hk_after gcc conv r ps c ++ l) s tr
    (call_but plug handler_sig (before_handler the_vars m) (handler gcc vf pks rk s0 the_vars a) K).
Proof.
  intros (cc & dx & b & df & I & Ag & Kp & Cx) HK. nums.
  assert (Eh : hk_n gcc conv r ps = align_bytes (T + (if vf then 4 else 0)) gcc (in_mem rk) 0).
  { unfold hk_n. rewrite stack_is, retmem. replace (HasVafmt conv) with vf by (symmetry; apply Hc). reflexivity. }
  assert (Rw : 0 <= (if vf then 4 else 0) <= 4) by (destruct vf; lia).
  destruct (align_spec (T + (if vf then 4 else 0)) gcc (in_mem rk) ltac:(lia)) as [An Am]. rewrite <- Eh in An, Am. clear Eh.
  pose proof (proj2 (mr_is (v_plugin_ret gcc conv r))) as Ms.
  assert (Vp : - 2 ^ 15 <= v_plugin_ret gcc conv r <= 0).
  { destruct void_dec as [Dr|Dr]; [|destruct (ret_vars Dr) as (_ & _ & _ & -> & _); lia]. pose proof ret_size as Rs. rewrite Dr in Rs. unfold v_plugin_ret. rewrite (proj1 Rs). cbn. lia. }
  assert (Pl : forall x, B + d - 24 <= x -> ~ inside plug x).
  { unfold inside, Jit32HookSpec.plug. cbn [the_vars Jit32Frame.the_vars a_plug fst snd]. intros x Hx Hi. destruct (in_mem rk) eqn:Im; [|lia].
    destruct (ret_vars (mem_void Im)) as (_ & _ & _ & V & _). lia. }
  unfold hk_push, hk_target, hk_after, push_this. rewrite destroy_nil. rewrite <- !app_assoc. cbn [app].
  set (n := hk_n gcc conv r ps) in *. set (mem1 := st4 mem (B + v_cur_res gcc conv) 0).
  assert (Ag1 : agree (before_handler the_vars m) mem1).
  { unfold before_handler, mem1, st4. cbn [the_vars Jit32Frame.the_vars a_cur]. apply agree_sto. exact Ag. }
  assert (Kp1 : keep mem1) by (unfold mem1, st4; apply keep_sto; [exact Kp|unfold W32 in *; lia|unfold W32 in *; lia|left; lia]).
  assert (Cx1 : ld4 mem1 (B + v_pContext gcc conv) = ctx) by (unfold mem1; rewrite ld4_diff by (unfold W32 in *; lia); exact Cx).
  unfold EBP at 1. eapply (X_storei _ _ _ _ _ _ _ _ _ _ _ _ _ I 5 MRES_IGNORED _ (B + v_cur_res gcc conv)); [lia|lia|unfold int32_ok, MRES_IGNORED; lia|lia|regs_cbn; apply w32_is; unfold W32 in *; lia|].
  change (w32 MRES_IGNORED) with 0. fold mem1. intros s1 I1. clear I.
  eapply before_W; [exact I1|lia|lia|]. clear s1 I1. intros s1 I1.
  eapply (buf_W [] 4); [exact I1|lia|left; split; reflexivity|]. clear s1 I1. intros s1 c1 mem2 I1 O2 B2.
  set (wv := if vf then 4 else 0) in *.
  assert (Bl2 : below mem1 mem2) by (apply (below_by _ _ _ _ O2); lia).
  eapply params_W; [exact I1|exact (below_keep _ _ Bl2 Kp1)|lia|]. clear s1 I1. intros s1 c2 d2 b2 df2 mem3 I1 O3 C3.
  assert (Bl3 : below mem1 mem3) by (apply (below_trans _ mem2 _ Bl2); apply (below_by _ _ _ _ O3); lia).
  eapply (X_mov_rr _ _ _ _ _ _ _ _ _ _ _ _ _ I1 1 0); [unfold ECX; lia|unfold EAX; lia|]. clear I1 s1. intros s1 I1. regs_cbn.
  eapply (push_if gcc 1 a); [exact I1|lia|reflexivity|lia|]. clear I1 s1. intros s1 mem4 I1 O4 T4.
  set (wt := if gcc then 4 else 0) in *. assert (Rt : 0 <= wt <= 4) by (unfold wt; destruct gcc; lia).
  assert (Bl4 : below mem1 mem4) by (apply (below_trans _ mem3 _ Bl3); apply (below_by _ _ _ _ O4); lia).
  eapply mr_W; [exact I1|lia|exact Vp|]. clear I1 s1. intros s1 d5 mem5 I1 O5 M5. set (wm := hid) in *.
  assert (Bl5 : below mem1 mem5) by (apply (below_trans _ mem4 _ Bl4); apply (below_by _ _ _ _ O5); lia).
  eapply (X_mov_rm _ _ _ _ _ _ _ _ _ _ _ _ _ I1 0 1); [lia|lia|lia|lia|]. clear I1 s1. intros s1 I1. regs_cbn.
  eapply (loads2 _ s1); [exact I1|]. clear I1 s1. intros s1 I1. regs_cbn.
  remember (E - n - wv - T - wt - wm) as sf eqn:Hsf.
  assert (Hh : head rk gcc = wt + wm) by reflexivity.
  assert (Ka : c_args handler_sig = wt + wm + T + wv) by reflexivity.
  eapply (call_but_W plug handler_sig _ _ _ 0 _ s1 tr _ _ _ mem5 I1); rewrite ?Ka; regs_cbn; try lia.
  - cbn [c_align Jit32HookSpec.handler_sig]. modlia.
  - exact (below_agree _ _ _ Bl5 Ag1).
  - apply agree_refl.
  - intros e v Te Ie. regs_cbn.
    assert (Esp : rg (e_in e) ESP = sf - 4) by (destruct Ie as (G & _); unfold ESP at 1; rewrite (G 4) by lia; reflexivity).
    assert (Em : mm (e_in e) = st4 mem5 (sf - 4) v) by apply Ie.
    assert (Up4 : forall x, sf + wm <= x -> mm (e_in e) x = mem4 x).
    { intros x Hx. rewrite Em, st4_out by (unfold W32 in *; lia). apply O5. lia. }
    assert (Up : forall x, sf + wm + wt <= x -> mm (e_in e) x = mem3 x).
    { intros x Hx. rewrite Up4 by lia. apply O4. lia. }
    split; [exact Te|]. split; [|split; [|split]].
    + unfold obj_at. assert (Dg : gcc = true \/ gcc = false) by (destruct gcc; auto). destruct Dg as [Dg|Dg].
      * assert (wt = 4) by (unfold wt; rewrite Dg; reflexivity). set (j := if gcc && in_mem rk then 1%nat else 0%nat).
        assert (Hj : 4 * Z.of_nat j = wm) by (unfold j, wm; rewrite Dg; destruct (in_mem rk); reflexivity).
        transitivity (arg (e_in e) j); [rewrite Dg; reflexivity|]. rewrite (arg_at (e_in e) _ _ _ j (sf + wm) Ie) by (regs_cbn; unfold W32 in *; lia).
        rewrite <- Em. transitivity (ld4 mem4 (sf + wm)); [apply ld4_ext; [lia|unfold W32 in *; lia|intros x Hx; apply Up4; lia]|].
        replace (sf + wm) with (E - n - wv - T - 4) by lia. apply T4. exact Dg.
      * transitivity (rg (e_in e) ECX); [rewrite Dg; reflexivity|]. destruct Ie as (G & _). unfold ECX. rewrite (G 1) by lia. reflexivity.
    + intros Im. assert (wm = 4) by (unfold wm; rewrite Im; reflexivity). unfold place_at. rewrite andb_negb_r. rewrite (arg_at (e_in e) _ _ _ 0 sf Ie) by (regs_cbn; unfold W32 in *; lia).
      rewrite ld4_diff by (unfold W32 in *; lia). replace sf with (E - n - wv - T - wt - 4) by lia. exact (M5 Im).
    + unfold params. rewrite Esp, Hh. replace (sf - 4 + 4 + (wt + wm)) with (E - n - wv - T) by lia.
      eapply copied_to; [| | |exact C3]; [lia|unfold W32 in *; lia|]. intros x Hx. apply Up. lia.
    + intros V. unfold further. rewrite Esp, Hh. assert (wv = 4) by (unfold wv; rewrite V; reflexivity). destruct (B2 V) as [B3 _].
      cbn [the_vars Jit32Frame.the_vars a_buf]. rewrite <- B3. replace (sf - 4 + 4 + (wt + wm) + T + 4 * 0) with (E - n - 4) by lia.
      apply ld4_ext; [lia|unfold W32 in *; lia|]. intros x Hx. rewrite Up by lia. apply O3. lia.
  - intros e a1 c5 dx1 f1 df1 m1 I2 Ea Eb Ed Ef El So. regs_cbn. clear I1 s1.
    assert (Fin : forall s2, is s2 (R8 a1 c5 dx1 b2 E B (rg s0 ESI) (rg s0 EDI)) f1 df1 m1 -> W (SaveRetVal gcc conv r (v_plugin_ret gcc conv r) ++ l) s2 (tr ++ [e]) (K e)).
    { intros s2 I3. assert (I3' : is s2 (R8 (rg (e_out e) EAX) c5 (rg (e_out e) EDX) b2 E B (rg s0 ESI) (rg s0 EDI)) f1 df1 m1) by (rewrite Ed; change (rg (e_out e) EAX) with (eax e); rewrite Eb; exact I3).
      eapply (save_W (v_plugin_ret gcc conv r) s2 c5 b2 f1 df1 m1 e); [exact I3'|exact Ea|exact Ef|exact El|left; reflexivity|].
      intros s3 m3 I4 O6 L5.
      assert (Own : forall x, ~ own x -> m3 x = m1 x).
      { intros x Hx. apply O6. intros Hr. apply Hx. pose proof void_dec as Dr.
        destruct Dr as [Dr|Dr]; [exfalso; pose proof ret_size as Rs; rewrite Dr in Rs; lia|]. destruct (ret_vars Dr) as (_ & _ & _ & V & _). rewrite V in Hr.
        apply own_plugin; [exact Dr|lia]. }
      assert (Hi : forall x, B + d - 24 <= x -> m3 x = m1 x).
      { intros x Hx. apply O6. intros Hr. pose proof void_dec as Dr.
        destruct Dr as [Dr|Dr]; [pose proof ret_size as Rs; rewrite Dr in Rs; lia|]. destruct (ret_vars Dr) as (_ & _ & _ & V & _). lia. }
      assert (S1 : forall x, own x -> B + d - 24 <= x -> m1 x = mem1 x) by (intros x Ox Hx; rewrite So by (try assumption; try (apply Pl); lia); apply Bl5; lia).
      apply (HK e s3 m3 (rg (e_out e) EAX)); [|intros _; exact L5].
      eexists _, _, _, _. split; [exact I4|]. split; [|split].
      - rewrite Ea. apply (agree_out _ m1); [exact Own|apply agree_refl].
      - intros x Hx. rewrite Hi by lia. rewrite S1 by (try (apply own_top; exact Hx); lia). apply Kp1. exact Hx.
      - rewrite <- Cx1. apply ld4_ext; [lia|unfold W32 in *; lia|]. intros x Hx. rewrite Hi by lia. apply S1; [apply (own_word_ctx x Hx)|lia]. }
    clear HK. assert (Dg : gcc = true \/ gcc = false) by (destruct gcc; auto). destruct Dg as [Dg|Dg].
    + assert (Hsp : c_pop handler_sig = wm) by (cbn [c_pop Jit32HookSpec.handler_sig]; unfold popped, wm; rewrite Dg; reflexivity).
      rewrite Hsp in I2. assert (wt = 4) by (unfold wt; rewrite Dg; reflexivity). replace (sf + wm) with (sf + wm + n - n) in I2 by lia.
      eapply after_W; [exact I2|lia|unfold W32 in *; lia|]. clear I2. intros s2 I2.
      assert (X : W (AAdd_Rm_ImmAuto ESP (hk_clean gcc conv r ps c + 4) MOD_REG :: SaveRetVal gcc conv r (v_plugin_ret gcc conv r) ++ l) s2 (tr ++ [e]) (K e)).
      { assert (Hcl : hk_clean gcc conv r ps c = T + wv). { unfold hk_clean. rewrite Ms, pp_size_is. replace (HasVafmt conv) with vf by (symmetry; apply Hc). fold wv. rewrite Dg. lia. }
        rewrite Hcl. unfold ESP at 1, MOD_REG. eapply (X_add_esp _ _ _ _ _ _ _ _ _ _ _ _ _ I2 _ (T + wv + 4) E); [reflexivity|cbn [asm_ok]; unfold rm_ok, int32_ok; lia|regs_cbn; apply w32_is; unfold W32 in *; lia|].
        regs_cbn. exact Fin. }
      rewrite Dg in X |- *. exact X.
    + assert (Hsp : c_pop handler_sig = wt + wm + T + wv) by (rewrite <- Ka; cbn [c_pop c_args Jit32HookSpec.handler_sig]; unfold popped; rewrite Dg; reflexivity).
      rewrite Hsp in I2. replace (sf + (wt + wm + T + wv)) with (E - n) in I2 by lia.
      eapply after_W; [exact I2|lia|unfold W32 in *; lia|]. clear I2. intros s2 I2. apply Fin in I2. rewrite Dg in I2 |- *. exact I2.
Qed.

(** ** After a handler *)
Lemma off_small l : 0 <= off l <= 16 * Z.of_nat (length l).
Proof. split; [unfold off; lia|apply off_le]. Qed.
Lemma shared_word m mem v : agree m mem -> B + d - 16 <= B + v -> B + v + 4 <= B + d -> ld4 mem (B + v) = ld4 m (B + v).
Proof.
  intros Ag H1 H2. nums. unfold ld4. apply ld_agree; [unfold W32 in *; lia|unfold W32 in *; lia| |exact Ag]. intros x Hx. apply not_own_vars. lia.
Qed.
Lemma store_shared s a m mem ctx v w : at_ease s a m mem ctx -> B + d - 16 <= B + v -> B + v + 4 <= B + d ->
  agree (st4 m (B + v) w) (st4 mem (B + v) w) /\ keep (st4 mem (B + v) w) /\ ld4 (st4 mem (B + v) w) (B + v_pContext gcc conv) = ctx /\ same_own mem (st4 mem (B + v) w).
Proof.
  intros (c & dx & b & df & I & Ag & Kp & Cx) H1 H2. nums. split; [apply agree_sto; exact Ag|]. split; [apply keep_sto; [exact Kp|unfold W32 in *; lia|unfold W32 in *; lia|left; lia]|].
  split; [rewrite ld4_diff by (unfold W32 in *; lia); exact Cx|]. intros x Ox _. apply st4_out; [unfold W32 in *; lia|unfold W32 in *; lia|].
  intros K. apply (not_own_vars x); [lia|exact Ox].
Qed.
Lemma after_handler_cur m : cur the_vars (after_handler the_vars m) = cur the_vars m.
Proof.
  nums. unfold after_handler, cur, status. cbn [Jit32Frame.the_vars a_cur a_prev a_status]. rewrite !(ld4_diff m) by (unfold W32 in *; lia).
  destruct (_ <? _); rewrite ?ld4_diff by (unfold W32 in *; lia); reflexivity.
Qed.
Lemma status_W s a m mem ctx l tr (F : sys) :
  at_ease s a m mem ctx ->
  (forall s' a' mem', at_ease s' a' (after_handler the_vars m) mem' ctx -> same_own mem mem' -> W l s' tr F) ->
  W (hk_status gcc conv ++ AJump_Cond_Imm8 CC_NG (off (hk_set gcc conv)) :: hk_set gcc conv ++ l) s tr F.
Proof.
  intros Hs HK. pose proof Hs as (c & dx & b & df & I & Ag & Kp & Cx). nums.
  assert (E1 : ld4 mem (B + v_cur_res gcc conv) = cur the_vars m) by (apply shared_word; [exact Ag|lia|lia]).
  assert (E2 : ld4 mem (B + v_status gcc conv) = status the_vars m) by (apply shared_word; [exact Ag|lia|lia]).
  destruct (store_shared s a m mem ctx (v_prev_res gcc conv) (cur the_vars m) Hs) as (A1 & K1 & C1 & O1); [lia|lia|].
  assert (Q1 : cur the_vars (st4 m (B + v_prev_res gcc conv) (cur the_vars m)) = cur the_vars m).
  { unfold cur at 1. cbn [Jit32Frame.the_vars a_cur]. rewrite ld4_diff by (unfold W32 in *; lia). reflexivity. }
  assert (Q2 : status the_vars (st4 m (B + v_prev_res gcc conv) (cur the_vars m)) = status the_vars m).
  { unfold status. cbn [Jit32Frame.the_vars a_status]. rewrite ld4_diff by (unfold W32 in *; lia). reflexivity. }
  assert (St : forall s' c' dx', is s' (R8 (cur the_vars m) c' dx' b E B (rg s0 ESI) (rg s0 EDI)) [] df (st4 mem (B + v_prev_res gcc conv) (cur the_vars m)) ->
    at_ease s' (cur the_vars m) (st4 m (B + v_prev_res gcc conv) (cur the_vars m)) (st4 mem (B + v_prev_res gcc conv) (cur the_vars m)) ctx).
  { intros s' c' dx' I'. eexists _, _, _, _. split; [exact I'|]. auto. }
  assert (Ah : after_handler the_vars m = (if s32 (status the_vars m) <? s32 (cur the_vars m) then st4 (st4 m (B + v_prev_res gcc conv) (cur the_vars m)) (B + v_status gcc conv) (cur the_vars m)
    else st4 m (B + v_prev_res gcc conv) (cur the_vars m))).
  { unfold after_handler. change (a_prev the_vars) with (B + v_prev_res gcc conv). change (a_status the_vars) with (B + v_status gcc conv). cbv zeta. rewrite Q1, Q2. reflexivity. }
  assert (Ob : forall s' c' dx', is s' (R8 (cur the_vars m) c' dx' b E B (rg s0 ESI) (rg s0 EDI)) [] df
      (st4 (st4 mem (B + v_prev_res gcc conv) (cur the_vars m)) (B + v_status gcc conv) (cur the_vars m)) -> s32 (status the_vars m) < s32 (cur the_vars m) -> W l s' tr F).
  { intros s' c' dx' I' Lt. eapply (HK s' (cur the_vars m)).
    - rewrite Ah. destruct (Z.ltb_spec (s32 (status the_vars m)) (s32 (cur the_vars m))); [|lia].
      assert (Hs1 : exists s1, at_ease s1 (cur the_vars m) (st4 m (B + v_prev_res gcc conv) (cur the_vars m)) (st4 mem (B + v_prev_res gcc conv) (cur the_vars m)) ctx).
      { exists (set_mm s' (st4 mem (B + v_prev_res gcc conv) (cur the_vars m))). apply (St _ c' dx'). eapply is_set_mm; [exact I'|]. unfold st4. apply sto_bytes. exact (is_bytes _ _ _ _ _ I). }
      destruct Hs1 as (s1 & Hs1). destruct (store_shared s1 _ _ _ _ (v_status gcc conv) (cur the_vars m) Hs1) as (A2 & K2 & C2 & O2); [lia|lia|].
      eexists _, _, _, _. split; [exact I'|]. auto.
    - intros x Ox Hx. rewrite st4_out; [apply O1; assumption|unfold W32 in *; lia|unfold W32 in *; lia|]. intros K. apply (not_own_vars x); [lia|exact Ox]. }
  assert (Nb' : forall s' c' dx', is s' (R8 (cur the_vars m) c' dx' b E B (rg s0 ESI) (rg s0 EDI)) [] df
      (st4 mem (B + v_prev_res gcc conv) (cur the_vars m)) -> ~ s32 (status the_vars m) < s32 (cur the_vars m) -> W l s' tr F).
  { intros s' c' dx' I' Lt. eapply (HK s' (cur the_vars m)); [|exact O1]. rewrite Ah. destruct (Z.ltb_spec (s32 (status the_vars m)) (s32 (cur the_vars m))); [lia|]. exact (St s' c' dx' I'). }
  clear HK St Hs. remember (cur the_vars m) as cu eqn:Hcu. remember (status the_vars m) as su eqn:Hsu. clear Hcu Hsu Q1 Q2 Ah.
  remember (S0 - 8) as bp eqn:Hbp. unfold hk_status, hk_set. cbn [app].
  go. rewrite E1 in *. go. rewrite E2 in *. go.
  pose proof (off_small [AMov_Rm_Reg_Disp8 5 0 (v_status gcc conv)]) as Os. cbn [length] in Os.
  match goal with J : is ?s1 _ _ _ _ |- W (?c1 :: ?j :: ?x :: l) ?s1 _ _ =>
    change (W (c1 :: j :: [x] ++ l) s1 tr F); eapply (X_cmp_jng _ _ _ _ _ _ _ _ _ _ _ _ _ J j 0 2 _ [x] (s32 cu <=? s32 su)) end;
    [reflexivity|cbn [asm_ok]; unfold CC_NG, cond_ok, int8_ok; lia|reflexivity|lia|lia|regs_cbn; reflexivity|].
  intros s4 I4. destruct (Z.leb_spec (s32 cu) (s32 su)).
  - eapply Nb'; [exact I4|lia].
  - cbn [app]. go. eapply Ob; [eassumption|lia].
Qed.

(** ** A handler's result is stored as the overriding result *)
Local Notation place := (Jit32HookSpec.place gcc vf pks rk s0 the_vars).
Lemma place_dec p : place p \/ ~ place p.
Proof.
  unfold Jit32HookSpec.place. destruct (Z_le_dec 0 p); [|right; tauto]. destruct (Z_lt_dec (p + N) W32); [|right; tauto].
  destruct (dec_all (fun x => ~ own x) p (rsize rk)) as [Y|Y]; [|left; auto|right; tauto].
  intros x. destruct (own_dec x); [right; tauto|left; assumption].
Qed.
Lemma copy_agree m mem mem' p A n res : agree m mem -> bytes_ok mem -> 0 <= p -> p + Z.of_nat n <= W32 -> 0 <= A -> A + Z.of_nat n <= W32 -> ld mem A n = res ->
  (forall j, 0 <= j < Z.of_nat n -> mem' (p + j) = mem (A + j)) -> (forall x, ~ own x -> ~ (p <= x < p + Z.of_nat n) -> mem' x = mem x) ->
  agree (sto m p n res) mem'.
Proof.
  intros Ag Hb P1 P2 A1 A2 Hr Hc1 Hc2 x Hx Ho.
  assert (D : p <= x < p + Z.of_nat n \/ ~ (p <= x < p + Z.of_nat n)) by lia. destruct D as [D|D].
  - replace x with (p + (x - p)) by lia. rewrite Hc1 by lia. symmetry. apply store_bytes with (n := n); try assumption; try lia.
    rewrite <- Hr. apply Z.mod_small. apply ld_range. exact Hb.
  - rewrite sto_out by assumption. rewrite Hc2 by assumption. apply Ag; assumption.
Qed.
Lemma apart (P Q : Z -> Prop) a b n : 1 <= n -> (forall x, a <= x < a + n -> P x) -> (forall x, b <= x < b + n -> ~ P x) -> a + n <= b \/ b + n <= a.
Proof.
  clear. intros Hn Ha Hb. destruct (Z_le_dec (a + n) b); [left; lia|]. destruct (Z_le_dec (b + n) a); [right; lia|]. exfalso.
  apply (Hb (Z.max a b)); [lia|]. apply Ha. lia.
Qed.
Lemma v_plugin_own x : rk <> RVoid -> B + v_plugin_ret gcc conv r <= x < B + v_plugin_ret gcc conv r + RS -> own x /\ E <= x.
Proof.
  intros Dr Hx. destruct (ret_vars Dr) as (_ & _ & _ & V & V1). rewrite V in Hx. split; [apply own_plugin; [exact Dr|lia]|].
  nums. pose proof E_is as [Ei _]. pose proof bot_is as Bi. destruct vf; lia.
Qed.
Lemma assign_W s a m mem ctx l tr res (F : sys) :
  rk <> RVoid -> at_ease s a m mem ctx -> place a -> ld mem (B + v_plugin_ret gcc conv r) (rsize rk) = res ->
  (forall s' a' mem', at_ease s' a' (sto m a (rsize rk) res) mem' ctx -> W l s' tr F) ->
  W (assign_override gcc conv r ++ l) s tr F.
Proof.
  intros Dr (c & dx & b & df & I & Ag & Kp & Cx) (P0 & P1 & P2) Hr HK. nums. pose proof ret_size as Rs. pose proof (is_bytes _ _ _ _ _ I) as Hb.
  destruct (ret_vars Dr) as (_ & _ & _ & Vp & _). pose proof (v_plugin_own) as Vo.
  assert (Rs' : 1 <= N <= RS) by (destruct rk; [contradiction|tauto ..]). clear Rs.
  assert (Bp : 0 <= B + v_plugin_ret gcc conv r /\ B + v_plugin_ret gcc conv r + RS < W32) by (unfold W32 in *; lia).
  assert (Fin : forall s' a' c' df' mem', is s' (R8 a' c' dx b E B (rg s0 ESI) (rg s0 EDI)) [] df' mem' ->
    (forall j, 0 <= j < N -> mem' (a + j) = mem (B + v_plugin_ret gcc conv r + j)) ->
    (forall x, ~ (a <= x < a + N) -> ~ (E - 8 <= x < E) -> mem' x = mem x) -> W l s' tr F).
  { intros s' a' c' df' mem' I' C1 C2. apply (HK s' a' mem'). eexists _, _, _, _. split; [exact I'|]. split; [|split].
    - apply (copy_agree m mem mem' a (B + v_plugin_ret gcc conv r)); try assumption; try lia. intros x Ho Hx. apply C2; [exact Hx|].
      intros K. apply Ho. apply own_stack. lia.
    - intros x Hx. rewrite C2; [apply Kp; exact Hx| |lia]. intros K. apply (P2 x K). apply own_top. exact Hx.
    - rewrite <- Cx. apply ld4_ext; [lia|unfold W32 in *; lia|]. intros x Hx. destruct (own_word_ctx x Hx) as [O1 O2]. apply C2; [|lia]. intros K. exact (P2 x K O1). }
  assert (Bit : forall n, rsize rk = n -> W ((BitwiseCopy_Setup ++ [AMov_Reg_Rm EDI EAX MOD_REG; ALea_DispRegImmAuto ESI EBP (v_plugin_ret gcc conv r)] ++ BitwiseCopy_Do (Z.of_nat n)) ++ l) s tr F).
  { intros n En. rewrite <- !app_assoc. cbn [app]. remember (S0 - 8) as bp eqn:Hbp.
    assert (DA : a + N <= bp + v_plugin_ret gcc conv r \/ bp + v_plugin_ret gcc conv r + N <= a).
    { destruct (apart own own (bp + v_plugin_ret gcc conv r) a N) as [X|X]; [lia| |exact P2|right; exact X|left; exact X]. intros x Hx. apply Vo; [exact Dr|lia]. }
    assert (DS : a + N <= E - 8 \/ E <= a).
    { destruct (Z_le_dec (a + N) (E - 8)); [left; lia|]. destruct (Z_le_dec E a); [right; lia|]. exfalso. apply (P2 (Z.max a (E - 8))); [lia|]. apply own_stack. lia. }
    rewrite En in *.
    eapply (bitwise_W _ _ _ _ _ n s a c dx b E bp (bp + v_plugin_ret gcc conv r) a (rg s0 ESI) (rg s0 EDI) [] df mem l tr F _ _ I); try lia.
    - destruct (Vo (bp + v_plugin_ret gcc conv r)) as [_ X]; [exact Dr|lia|lia].
    - intros s' m' l' G J KJ _. unreg. eapply (X_mov_rr _ _ _ _ _ _ _ _ _ _ _ _ _ J 7 0); [lia|lia|]. regs_cbn. exact KJ.
    - intros s' m' l' G J KJ _. unreg. eapply (X_lea _ _ _ _ _ _ _ _ _ _ _ _ _ J 6 5 _ (bp + v_plugin_ret gcc conv r)); [lia|lia|lia|unfold int32_ok; lia|regs_cbn; apply w32_is; unfold W32 in *; lia|]. regs_cbn. exact KJ.
    - intros s' c' m' J M1 M2. eapply Fin; [exact J|exact M2|]. intros x X1 X2. apply M1; assumption. }
  unfold assign_override. destruct Hc as (_ & _ & (_ & _ & C) & _).
  destruct rk as [|n|n|n] eqn:Ek; [contradiction| | |]; cbn [rsize] in *.
  - destruct C as [(C1 & C2 & -> & C3)|(C1 & C2 & C3 & C4 & C5 & C6)]; rewrite C1.
    + cbn [app]. remember (S0 - 8) as bp eqn:Hbp. go. go.
      eapply Fin; [eassumption| |].
      * intros j Hj. apply store_bytes with (n := 4%nat); try assumption; try (unfold W32 in *; lia). unfold ld4. apply Z.mod_small. apply ld_range. exact Hb.
      * intros x X1 X2. apply st4_out; unfold W32 in *; lia.
    + rewrite C4, C5. cbn [Z.eqb negb]. apply Bit. reflexivity.
  - destruct C as (C1 & C2 & C3 & C4 & C5 & C6). rewrite C1, C4, C5. cbn [Z.eqb negb]. apply Bit. reflexivity.
  - destruct C as (C1 & C2 & C3 & C4 & C5 & C6 & C7 & C8 & C9). rewrite C1, C6, C8. cbn [Z.eqb negb]. apply Bit. reflexivity.
Qed.
Lemma off_do n : off (BitwiseCopy_Do n) <= 16.
Proof. unfold BitwiseCopy_Do. destruct (n / 4 =? 0), (n mod 4 =? 0); vm_compute; discriminate. Qed.
Lemma over_off : rk <> RVoid -> 0 <= off (over_body gcc conv r) <= 127.
Proof.
  intros Dr. nums.
  assert (P1 : v_pContext gcc conv = -24 \/ v_pContext gcc conv = -28) by lia.
  split; [apply off_small|]. unfold over_body, ctx_call, assign_override, push_this, pop_this. clear - P1 Hc Dr.
  generalize dependent (v_pContext gcc conv). generalize (v_plugin_ret gcc conv r). intros v2 v1 H1.
  destruct Hc as (_ & _ & (_ & _ & C) & _).
  assert (Cases : has (pi_flags r) PassFlag_ByRef = true \/ has (pi_flags r) PassFlag_ByRef = false /\ pi_assign r = 0).
  { destruct rk as [|n|n|n]; [contradiction| | |]; [destruct C as [C|C]| |]; [left; tauto|right|right|right]; tauto. }
  assert (A1 : off [ALea_DispRegImmAuto ESI EBP v2] <= 7).
  { unfold off, emit_all. cbn [flat_map map concat emit]. unfold Lea_DispRegImmAuto. destruct (fits8 v2); vm_compute; discriminate. }
  assert (A2 : off [AMov_Reg_Rm_DispAuto ECX EBP v2] <= 7).
  { unfold off, emit_all. cbn [flat_map map concat emit]. unfold Mov_Reg_Rm_DispAuto. destruct (v2 =? 0), (v2 <=? 127); vm_compute; discriminate. }
  pose proof (off_do (pi_size r)) as A3.
  rewrite off_app. match goal with |- off ?x + _ <= _ => assert (A4 : off x <= 20) by (destruct gcc; decompose [or] H1; subst v1; vm_compute; discriminate); generalize dependent (off x) end. intros o1 A4.
  destruct Cases as [-> |(-> & ->)].
  - rewrite off_cons. change (off [AMov_Rm_Reg EAX ECX MOD_MEM_REG]) with 2. lia.
  - cbn [Z.eqb negb]. rewrite !off_app. change (off BitwiseCopy_Setup) with 3. rewrite off_cons. change (off [AMov_Reg_Rm EDI EAX MOD_REG]) with 2. lia.
Qed.
Lemma over_W s a m mem ctx l tr res (KK : (Z -> Z) -> sys) :
  at_ease s a m mem ctx -> (rk <> RVoid -> ld mem (B + v_plugin_ret gcc conv r) (rsize rk) = res) ->
  (forall tr' s' a' m' mem', at_ease s' a' m' mem' ctx -> W l s' tr' (KK m')) ->
  W (over_list gcc conv r ++ l) s tr
    (if overrides rk the_vars m then call (virt_sig gcc) m (virt gcc ctx x_over) (fun g => guard (place (eax g)) (KK (sto (after g) (eax g) (rsize rk) res))) else KK m).
Proof.
  intros Hs Hr HK. pose proof ret_size as Rs. pose proof Hs as (c & dx & b & df & I & Ag & Kp & Cx). nums.
  destruct void_dec as [Dr|Dr].
  - unfold overrides, over_list. rewrite Dr in *. destruct Rs as [-> _]. cbn [Z.eqb app]. eapply HK. exact Hs.
  - assert (Eo : overrides rk the_vars m = (OVERRIDE <=? s32 (cur the_vars m))) by (unfold overrides; destruct rk; [contradiction|reflexivity ..]).
    assert (Rz : (pi_size r =? 0) = false) by (apply Z.eqb_neq; destruct rk; [contradiction|tauto ..]).
    rewrite Eo. unfold over_list. rewrite Rz. cbn [app]. specialize (Hr Dr).
    assert (E1 : ld4 mem (B + v_cur_res gcc conv) = cur the_vars m) by (apply shared_word; [exact Ag|lia|lia]).
    pose proof (over_off Dr) as Oo.
    assert (Eb : W (over_body gcc conv r ++ l) = W (over_body gcc conv r ++ l)) by reflexivity.
    remember (S0 - 8) as bp eqn:Hbp. go. rewrite E1 in *.
    match goal with J : is ?s1 _ _ _ _ |- _ => eapply (X_cmpi_j _ _ _ _ _ _ _ _ _ _ _ _ _ J _ 12 0 MRES_OVERRIDE (off (over_body gcc conv r)) (over_body gcc conv r) (s32 (cur the_vars m) <? 2)) end;
      [reflexivity|cbn [asm_ok]; unfold CC_L, cond_ok, int8_ok; lia|reflexivity|lia|unfold int32_ok, MRES_OVERRIDE; lia|right; split; [reflexivity|regs_cbn; reflexivity]|].
    intros s2 I2. unfold OVERRIDE. destruct (Z.ltb_spec (s32 (cur the_vars m)) 2) as [Lt|Ge].
    + destruct (Z.leb_spec 2 (s32 (cur the_vars m))); [lia|]. eapply (HK _ _ (cur the_vars m) m mem). eexists _, _, _, _. split; [subst bp; exact I2|]. subst bp. auto.
    + destruct (Z.leb_spec 2 (s32 (cur the_vars m))); [|lia]. unfold over_body. rewrite <- app_assoc.
      eapply (ctx_W 1 _ s2 (cur the_vars m) m mem ctx _ tr); [exact loads1| |].
      * eexists _, _, _, _. split; [subst bp; exact I2|]. subst bp. auto.
      * intros e s' mem' Hs' So. destruct (place_dec (eax e)) as [Y|Y].
        -- eapply W_weak with (F := KK (sto (after e) (eax e) (rsize rk) res)); [intros q w z Hk; left; split; assumption|].
           eapply (assign_W s' (eax e) (after e) mem' ctx l (tr ++ [e]) res); [exact Dr|exact Hs'|exact Y| |].
           ++ unreg. rewrite <- Hbp, <- Hr. apply ld_ext; [unfold W32 in *; destruct (ret_vars Dr) as (_ & _ & _ & V & _); lia|unfold W32 in *; destruct (ret_vars Dr) as (_ & _ & _ & V & _); lia|].
              intros x Hx. destruct (v_plugin_own x Dr) as [O1 O2]; [subst bp; unreg; lia|]. apply So; assumption.
           ++ intros s3 a3 mem3 Hs3. eapply HK. exact Hs3.
        -- apply (W_stop _ _ _ _ _ _ _ _ _ Broken). right. split; [exact Y|]. split; reflexivity.
Qed.

(** ** Lengths, for the distances of jumps *)
Lemma save_length v : (length (SaveRetVal gcc conv r v) <= 2)%nat.
Proof.
  unfold SaveRetVal. rewrite retmem, memtmp. cbn [negb]. rewrite andb_true_r. unfold save_regs. destruct (in_mem rk); cbn [app].
  { destruct (_ =? _); cbn [length]; [lia|]. destruct (has _ _); cbn [length]; lia. }
  repeat match goal with |- context [if ?x then _ else _] => destruct x end; cbn [length]; lia.
Qed.
Lemma pp_length c : (length (pp_list gcc conv r ps c) <= 14 * length ps)%nat.
Proof. unfold pp_list, PushParams. eapply push_params_length. apply Hc. Qed.
Lemma ps_length : Z.of_nat (length ps) < 2 ^ 13.
Proof. nums. destruct Hc as (_ & _ & _ & Hp & _). pose proof (total_size _ _ Hp). lia. Qed.
Lemma over_length : (length (over_list gcc conv r) <= 60)%nat.
Proof.
  unfold over_list. destruct (pi_size r =? 0); [cbn [length]; lia|]. cbn [app length]. unfold over_body, ctx_call, assign_override, push_this, pop_this, AlignBefore, AlignAfter, align4.
  rewrite !app_length. pose proof (do_length (pi_size r)).
  repeat match goal with |- context [if ?x then _ else _] => lazymatch x with context [if _ then _ else _] => fail | _ => destruct x end end; rewrite ?app_length; cbn [length BitwiseCopy_Setup]; lia.
Qed.
Lemma body_length c : (length (hk_body gcc conv r ps c) <= 120 + 14 * length ps)%nat.
Proof.
  unfold hk_body, hk_push, hk_target, hk_after, hk_status, hk_set, push_this, AlignBefore, AlignAfter. rewrite (proj1 (mr_is _)), destroy_nil.
  rewrite !app_length. cbn [length]. rewrite !app_length. pose proof (save_length (v_plugin_ret gcc conv r)). pose proof (pp_length c). pose proof over_length.
  repeat match goal with |- context [length (if ?x then _ else _)] => destruct x end; cbn [length]; lia.
Qed.
Lemma jump_ok l n : (length l <= 1000 + 28 * n)%nat -> Z.of_nat n < 2 ^ 13 -> int32_ok (off l) /\ int32_ok (- off l).
Proof. intros H K. pose proof (off_small l). unfold int32_ok. lia. Qed.

(** ** The loop *)
Local Notation hooks := (Jit32HookSpec.hooks gcc vf u pks rk s0 the_vars E).
Lemma loop_W c L : forall s a m mem ctx l tr (K : (Z -> Z) -> sys),
  at_ease s a m mem ctx -> (forall tr' s' a' m' mem', at_ease s' a' m' mem' ctx -> W l s' tr' (K m')) ->
  W (hk_loop gcc conv r ps c ++ l) s tr (hooks L ctx m K).
Proof.
  induction L as [|L IH]; intros s a m mem ctx l tr K Hs HK; [apply (W_stop _ _ _ _ _ _ _ _ _ Cut); split; reflexivity|].
  apply W_known. intros Sf. cbn [Jit32HookSpec.hooks]. pose proof (body_length c) as Bl. pose proof ps_length as Pl.
  unfold hk_loop, hk_head in Sf |- *. unfold hk_next in Sf |- *. rewrite <- !app_assoc in Sf |- *. cbn [app] in Sf |- *. rewrite <- ?app_assoc in Sf |- *. cbn [app] in Sf |- *.
  eapply (ctx_W 0 _ s a m mem ctx _ tr); [exact loads0|exact Hs|]. intros e s1 mem1 Hs1 _. clear s Hs. pose proof Hs1 as (c1 & dx & b & df & I & Ag & Kp & Cx).
  assert (J1 : int32_ok (hk_out gcc conv r ps c)).
  { unfold hk_out. eapply (jump_ok _ (length ps)); [|exact Pl]. rewrite app_length. cbn [length]. lia. }
  assert (J2 : int32_ok (hk_back gcc conv r ps c)).
  { unfold hk_back. eapply (jump_ok _ (length ps)); [|exact Pl]. unfold hk_head, hk_next, ctx_call, push_this, pop_this. rewrite !app_length. cbn [length]. rewrite ?app_length. destruct gcc; cbn [length app]; lia. }
  replace (hk_body gcc conv r ps c ++ AJump_Imm32 (hk_back gcc conv r ps c) :: l) with ((hk_body gcc conv r ps c ++ [AJump_Imm32 (hk_back gcc conv r ps c)]) ++ l) by (rewrite <- app_assoc; reflexivity).
  eapply (X_test_jz _ _ _ _ _ _ _ _ _ _ _ _ _ I _ 0 (hk_out gcc conv r ps c) (hk_body gcc conv r ps c ++ [AJump_Imm32 (hk_back gcc conv r ps c)]) (eax e =? 0));
    [reflexivity|cbn [asm_ok]; unfold CC_Z, cond_ok; split; [lia|exact J1]|unfold hk_out; noff; reflexivity|lia|reflexivity|].
  intros s2 I2. assert (Hs2 : at_ease s2 (eax e) (after e) mem1 ctx) by (eexists _, _, _, _; split; [exact I2|auto]).
  destruct (eax e =? 0) eqn:Ez; [eapply HK; exact Hs2|]. clear s1 I Hs1. rewrite <- app_assoc. cbn [app].
  unfold hk_body. rewrite <- !app_assoc. eapply handler_W; [exact Hs2|]. clear s2 I2 Hs2. intros f s3 mem3 a3 Hs3 Lr.
  rewrite <- !app_comm_cons, <- !app_assoc.
  eapply status_W; [exact Hs3|]. intros s4 a4 mem4 Hs4 So4.
  replace (overrides rk the_vars (after f)) with (overrides rk the_vars (after_handler the_vars (after f))) by (unfold overrides; rewrite after_handler_cur; reflexivity).
  eapply (over_W s4 a4 (after_handler the_vars (after f)) mem4 ctx _ _ (result u rk (a_plug the_vars) f) (fun m => hooks L ctx m K)); [exact Hs4| |].
  - intros Dr. transitivity (ld mem3 (B + v_plugin_ret gcc conv r) (rsize rk)); [|exact (Lr Dr)]. nums. destruct (ret_vars Dr) as (_ & _ & _ & V & _). apply ld_ext; [unfold W32 in *; lia|unfold W32 in *; lia|].
    intros x Hx. destruct (v_plugin_own x Dr) as [O1 O2]; [lia|]. apply So4; assumption.
  - intros tr5 s5 a5 m5 mem5 Hs5.
    assert (Sh : hk_head gcc conv r ps c ++ AJump_Imm32 (hk_back gcc conv r ps c) :: l = hk_loop gcc conv r ps c ++ l) by (unfold hk_loop; rewrite <- app_assoc; reflexivity).
    eapply (W_back _ _ _ _ _ _ _ (hk_head gcc conv r ps c)); [reflexivity|exact J2|unfold hk_back; noff; reflexivity| |].
    + unfold hk_head, hk_next. rewrite <- ?app_assoc. cbn [app]. rewrite <- ?app_assoc. exact Sf.
    + rewrite Sh. eapply IH; [exact Hs5|exact HK].
Qed.
Lemma hooks_W c L s a m mem ctx l tr (K : (Z -> Z) -> sys) :
  at_ease s a m mem ctx -> (forall tr' s' a' m' mem', at_ease s' a' m' mem' ctx -> W l s' tr' (K m')) ->
  W (hk_list gcc conv r ps c ++ l) s tr (hooks L ctx (st4 m (a_prev the_vars) IGNORED) K).
Proof.
  intros Hs HK. pose proof Hs as (c1 & dx & b & df & I & Ag & Kp & Cx). nums. unfold hk_list. cbn [app].
  destruct (store_shared s a m mem ctx (v_prev_res gcc conv) 0 Hs) as (A1 & K1 & C1 & O1); [lia|lia|].
  unfold EBP at 1. eapply (X_storei _ _ _ _ _ _ _ _ _ _ _ _ _ I 5 MRES_IGNORED _ (B + v_prev_res gcc conv)); [lia|lia|unfold int32_ok, MRES_IGNORED; lia|lia|regs_cbn; apply w32_is; unfold W32 in *; lia|].
  change (w32 MRES_IGNORED) with 0. intros s1 I1. eapply loop_W; [|exact HK]. eexists _, _, _, _. split; [exact I1|]. split; [exact A1|]. split; [exact K1|exact C1].
Qed.

(** ** The original function *)
Lemma stored_agree m m1 m3 A n w res : agree m m1 -> bytes_ok m3 -> 0 <= A -> A + Z.of_nat n <= W32 -> (forall x, ~ (A <= x < A + w) -> m3 x = m1 x) ->
  ld m3 A n = res -> (forall x, A + Z.of_nat n <= x < A + w -> own x) -> agree (sto m A n res) m3.
Proof.
  intros Ag Hb A1 A2 O L P x Hx Ox. destruct (Z_le_dec A x); [destruct (Z_lt_dec x (A + Z.of_nat n))|].
  - rewrite sto_in by lia. rewrite <- L, ld_byte by (assumption || lia). f_equal. lia.
  - rewrite sto_out by lia. destruct (Z_lt_dec x (A + w)); [exfalso; apply Ox, P; lia|]. rewrite O by lia. apply Ag; assumption.
  - rewrite sto_out by lia. rewrite O by lia. apply Ag; assumption.
Qed.
Local Notation orig_sig := (Jit32HookSpec.orig_sig gcc vf pks rk).
Notation ogh := (if gcc then APush_Reg ECX :: mr_list gcc conv r (v_orig_ret gcc conv r) else mr_list gcc conv r (v_orig_ret gcc conv r) ++ (if vf then [APush_Reg ECX] else [])).
Lemma target_eq l : og_target gcc conv r ++ l =
  AMov_Reg_Rm_DispAuto ECX EBP (v_this gcc conv r) :: ogh ++ AMov_Reg_Rm_DispAuto EAX EBP (v_vfnptr_origentry gcc conv) :: ACall_Reg EAX :: l.
Proof.
  unfold og_target. replace (HasVarArgs conv) with vf by (symmetry; apply Hc). rewrite <- !app_assoc. cbn [app]. reflexivity.
Qed.
(** the object and the address for the result are pushed, in the order of the compiler *)
Lemma heads_W s a c dx b sp df mem l tr (F : sys) :
  is s (R8 a c dx b sp B (rg s0 ESI) (rg s0 EDI)) [] df mem -> 8 <= sp ->
  (forall s' dx' mem', is s' (R8 a c dx' b (sp - (if gcc || vf then 4 else 0) - hid) B (rg s0 ESI) (rg s0 EDI)) [] df mem' ->
     (forall x, ~ (sp - 8 <= x < sp) -> mem' x = mem x) ->
     (gcc || vf = true -> ld4 mem' (sp - 4 - hid + (if gcc && in_mem rk then 4 else 0)) = c) ->
     (in_mem rk = true -> ld4 mem' (sp - (if gcc || vf then 4 else 0) - 4 + (if (gcc || vf) && negb gcc then 4 else 0)) = B + v_orig_ret gcc conv r) -> W l s' tr F) ->
  W (ogh ++ l) s tr F.
Proof.
  intros I Hs HK. nums. pose proof (is_ok _ _ _ _ _ I) as (_ & _ & _ & _ & Os & _). regs_cbn. unfold okr in Os.
  assert (Vp : - 2 ^ 15 <= v_orig_ret gcc conv r <= 0).
  { destruct void_dec as [Dr|Dr]; [destruct (void_vars Dr) as (-> & _)|destruct (ret_vars Dr) as (_ & -> & _)]; lia. }
  assert (Dg : gcc = true \/ gcc = false) by (destruct gcc; auto). destruct Dg as [Dg|Dg].
  - replace ogh with ([APush_Reg ECX] ++ mr_list gcc conv r (v_orig_ret gcc conv r)) by (rewrite Dg; reflexivity). rewrite <- app_assoc.
    eapply (push_if true 1 c); [exact I|lia|reflexivity|lia|]. clear I s. intros s1 mem1 I1 O1 T1. specialize (T1 eq_refl).
    eapply mr_W; [exact I1|lia|exact Vp|]. clear I1 s1. intros s1 dx' mem2 I1 O2 T2.
    apply (HK s1 dx' mem2).
    + replace (if gcc || vf then 4 else 0) with 4 by (rewrite Dg; reflexivity). exact I1.
    + intros x Hx. rewrite O2, O1 by lia. reflexivity.
    + intros _. replace (if gcc && in_mem rk then 4 else 0) with hid by (rewrite Dg; reflexivity). replace (sp - 4 - hid + hid) with (sp - 4) by lia.
      rewrite <- T1. apply ld4_ext; [lia|lia|]. intros x Hx. apply O2. lia.
    + intros Im. rewrite <- (T2 Im). f_equal. rewrite Dg. cbn. lia.
  - replace ogh with (mr_list gcc conv r (v_orig_ret gcc conv r) ++ (if vf then [APush_Reg ECX] else [])) by (rewrite Dg; reflexivity). rewrite <- app_assoc.
    eapply mr_W; [exact I|lia|exact Vp|]. clear I s. intros s1 dx' mem1 I1 O1 T1.
    eapply (push_if vf 1 c); [exact I1|lia|reflexivity|lia|]. clear I1 s1. intros s1 mem2 I1 O2 T2.
    apply (HK s1 dx' mem2).
    + replace (if gcc || vf then 4 else 0) with (if vf then 4 else 0) by (rewrite Dg; reflexivity).
      replace (sp - (if vf then 4 else 0) - hid) with (sp - hid - (if vf then 4 else 0)) by lia. exact I1.
    + intros x Hx. rewrite O2, O1 by lia. reflexivity.
    + intros V. replace (if gcc && in_mem rk then 4 else 0) with 0 by (rewrite Dg; reflexivity). replace (sp - 4 - hid + 0) with (sp - hid - 4) by lia.
      apply T2. rewrite Dg in V. exact V.
    + intros Im. rewrite <- (T1 Im). transitivity (ld4 mem2 (sp - 4)).
      * f_equal. rewrite Dg. destruct vf; cbn; lia.
      * rewrite Im in *. apply ld4_ext; [lia|lia|]. intros x Hx. apply O2. lia.
Qed.
Lemma oret_range : 0 <= B + v_orig_ret gcc conv r /\ B + v_orig_ret gcc conv r + RS < W32 /\ E <= B + v_orig_ret gcc conv r.
Proof.
  nums. destruct void_dec as [Dr|Dr].
  - destruct (void_vars Dr) as (-> & _). unfold W32 in *. lia.
  - destruct (ret_vars Dr) as (_ & V & _ & _ & F1). pose proof bot_is as Bb. pose proof E_is as Eb.
    assert (E <= B + d - 28 - 3 * RS) by (destruct vf; lia). unfold W32 in *. lia.
Qed.
Lemma original_W c s a m mem ctx l tr (K : event -> sys) :
  int32_ok (k_fmt k) -> at_ease s a m mem ctx ->
  (forall e s' mem' a', at_ease s' a' (sto (after e) (a_oret the_vars) (rsize rk) (result u rk (a_oret the_vars) e)) mem' ctx -> W l s' (tr ++ [e]) (K e)) ->
  W (og_call gcc conv k r ps c ++ l) s tr (call orig_sig m (original gcc vf the_iface pks rk s0 the_vars) K).
Proof.
  intros Hf (cc & dx & b & df & I & Ag & Kp & Cx) HK. nums. pose proof oret_range as Or.
  assert (Eh : og_n gcc conv r ps = align_bytes (T + (if vf then 8 else 0)) (gcc || vf) (in_mem rk) 0).
  { unfold og_n. rewrite stack_is, retmem. replace (HasVafmt conv) with vf by (symmetry; apply Hc). replace (HasVarArgs conv) with vf by (symmetry; apply Hc). reflexivity. }
  assert (Rw : 0 <= (if vf then 8 else 0) <= 8) by (destruct vf; lia).
  destruct (align_spec (T + (if vf then 8 else 0)) (gcc || vf) (in_mem rk) ltac:(lia)) as [An Am]. rewrite <- Eh in An, Am. clear Eh.
  pose proof (proj2 (mr_is (v_orig_ret gcc conv r))) as Ms.
  unfold og_call, og_push, og_after. rewrite destroy_nil. rewrite <- !app_assoc. rewrite target_eq. cbn [app].
  set (n := og_n gcc conv r ps) in *.
  eapply before_W; [exact I|lia|lia|]. clear s I. intros s1 I1.
  eapply (buf_W [APush_Imm32 (k_fmt k)] 8); [exact I1|lia|right; split; [reflexivity|split; [reflexivity|exact Hf]]|]. clear s1 I1. intros s1 c1 mem2 I1 O2 B2.
  set (wv := if vf then 8 else 0) in *.
  assert (Bl2 : below mem mem2) by (apply (below_by _ _ _ _ O2); lia).
  eapply params_W; [exact I1|exact (below_keep _ _ Bl2 Kp)|lia|]. clear s1 I1. intros s1 c2 d2 b2 df2 mem3 I1 O3 C3.
  assert (Bl3 : below mem mem3) by (apply (below_trans _ mem2 _ Bl2); apply (below_by _ _ _ _ O3); lia).
  destruct (keep_regs mem3 (below_keep _ _ Bl3 Kp)) as (_ & _ & _ & Th).
  assert (Rt0 : v_this gcc conv r = 12 \/ v_this gcc conv r = -4 \/ v_this gcc conv r = 16) by (rewrite Nth; destruct gcc, vf, (in_mem rk); cbn; lia).
  unfold EBP, EAX.
  eapply (X_load _ _ _ _ _ _ _ _ _ _ _ _ _ I1 1 5 _ (B + v_this gcc conv r)); [lia|lia|lia|lia|lia|regs_cbn; apply w32_is; unfold W32 in *; lia|]. rewrite Th. clear I1 s1. intros s1 I1. regs_cbn.
  eapply heads_W; [exact I1|lia|]. clear I1 s1. intros s1 d4 mem4 I1 O4 T4 M4.
  set (wt := if gcc || vf then 4 else 0) in *. set (wm := hid) in *. assert (Rt : 0 <= wt <= 4) by (unfold wt; destruct (gcc || vf); lia).
  assert (Bl4 : below mem mem4) by (apply (below_trans _ mem3 _ Bl3); apply (below_by _ _ _ _ O4); lia).
  eapply (X_load _ _ _ _ _ _ _ _ _ _ _ _ _ I1 0 5 _ (B + v_vfnptr_origentry gcc conv)); [lia|lia|lia|lia|lia|regs_cbn; apply w32_is; unfold W32 in *; lia|]. clear I1 s1. intros s1 I1. regs_cbn.
  remember (E - n - wv - T - wt - wm) as sf eqn:Hsf.
  assert (Hh : head rk (on_stack gcc vf) = wt + wm) by reflexivity.
  assert (Ka : c_args orig_sig = wt + wm + T + wv) by reflexivity.
  eapply (call_W orig_sig _ _ _ 0 _ s1 tr _ _ _ mem4 I1); rewrite ?Ka; regs_cbn; try lia.
  - cbn [c_align Jit32HookSpec.orig_sig]. modlia.
  - exact (below_agree _ _ _ Bl4 Ag).
  - apply agree_refl.
  - intros e v Te Ie. regs_cbn.
    assert (Esp : rg (e_in e) ESP = sf - 4) by (destruct Ie as (G & _); unfold ESP at 1; rewrite (G 4) by lia; reflexivity).
    assert (Em : mm (e_in e) = st4 mem4 (sf - 4) v) by apply Ie.
    assert (Up : forall x, sf + wt + wm <= x -> mm (e_in e) x = mem3 x).
    { intros x Hx. rewrite Em, st4_out by (unfold W32 in *; lia). apply O4. lia. }
    split; [exact Te|]. split; [|split; [|split]].
    + unfold obj_at, on_stack. assert (Dg : gcc || vf = true \/ gcc || vf = false) by (destruct (gcc || vf); auto). destruct Dg as [Dg|Dg].
      * assert (wt = 4) by (unfold wt; rewrite Dg; reflexivity). set (j := if gcc && in_mem rk then 1%nat else 0%nat).
        assert (Hj : 4 * Z.of_nat j = (if gcc && in_mem rk then 4 else 0)) by (unfold j; destruct (gcc && in_mem rk); reflexivity).
        assert (Hj2 : 0 <= Z.of_nat j <= 1) by (unfold j; destruct (gcc && in_mem rk); cbn; lia).
        transitivity (arg (e_in e) j); [rewrite Dg; reflexivity|]. rewrite (arg_at (e_in e) _ _ _ j (sf + 4 * Z.of_nat j) Ie) by (regs_cbn; unfold W32 in *; lia).
        rewrite ld4_diff by (unfold W32 in *; lia). rewrite Hj. replace sf with (E - n - wv - T - 4 - wm) by lia. apply T4. exact Dg.
      * transitivity (rg (e_in e) ECX); [rewrite Dg; reflexivity|]. destruct Ie as (G & _). unfold ECX. rewrite (G 1) by lia. reflexivity.
    + intros Im. assert (wm = 4) by (unfold wm; rewrite Im; reflexivity). unfold place_at, on_stack. set (j := if (gcc || vf) && negb gcc then 1%nat else 0%nat).
      assert (Hj : 4 * Z.of_nat j = (if (gcc || vf) && negb gcc then 4 else 0)) by (unfold j; destruct ((gcc || vf) && negb gcc); reflexivity).
      assert (Hj2 : 0 <= Z.of_nat j <= 1) by (unfold j; destruct ((gcc || vf) && negb gcc); cbn; lia).
      rewrite (arg_at (e_in e) _ _ _ j (sf + 4 * Z.of_nat j) Ie) by (regs_cbn; unfold W32 in *; lia).
      rewrite ld4_diff by (unfold W32 in *; lia). rewrite Hj. replace sf with (E - n - wv - T - wt - 4) by lia. exact (M4 Im).
    + unfold params. rewrite Esp, Hh. replace (sf - 4 + 4 + (wt + wm)) with (E - n - wv - T) by lia.
      eapply copied_to; [| | |exact C3]; [lia|unfold W32 in *; lia|]. intros x Hx. apply Up. lia.
    + intros V. unfold further. rewrite Esp, Hh. assert (wv = 8) by (unfold wv; rewrite V; reflexivity). destruct (B2 V) as [B3 B4]. specialize (B4 eq_refl).
      cbn [the_vars Jit32Frame.the_vars a_buf Jit32Frame.the_iface c_fmt]. rewrite <- B3, <- B4. split.
      * replace (sf - 4 + 4 + (wt + wm) + T + 4 * 0) with (E - n - 8) by lia. apply ld4_ext; [lia|unfold W32 in *; lia|]. intros x Hx. rewrite Up by lia. apply O3. lia.
      * replace (sf - 4 + 4 + (wt + wm) + T + 4 * 1) with (E - n - 4) by lia. apply ld4_ext; [lia|unfold W32 in *; lia|]. intros x Hx. rewrite Up by lia. apply O3. lia.
  - intros e a1 c5 dx1 f1 df1 m1 I2 Ea Eb Ed Ef El So. regs_cbn. clear I1 s1.
    assert (Fin : forall s2, is s2 (R8 a1 c5 dx1 b2 E B (rg s0 ESI) (rg s0 EDI)) f1 df1 m1 -> W (SaveRetVal gcc conv r (v_orig_ret gcc conv r) ++ l) s2 (tr ++ [e]) (K e)).
    { intros s2 I3. assert (I3' : is s2 (R8 (rg (e_out e) EAX) c5 (rg (e_out e) EDX) b2 E B (rg s0 ESI) (rg s0 EDI)) f1 df1 m1) by (rewrite Ed; change (rg (e_out e) EAX) with (eax e); rewrite Eb; exact I3).
      eapply (save_W (v_orig_ret gcc conv r) s2 c5 b2 f1 df1 m1 e); [exact I3'|exact Ea|exact Ef|exact El|right; reflexivity|].
      intros s3 m3 I4 O5 L5.
      assert (Hi : forall x, B + d - 24 <= x -> m3 x = m1 x).
      { intros x Hx. apply O5. intros Hr.
        destruct void_dec as [Dr|Dr]; [pose proof ret_size as Rs; rewrite Dr in Rs; lia|]. destruct (ret_vars Dr) as (_ & V & _). lia. }
      assert (S1 : same_own mem m1) by (intros x Ox Hx; rewrite So by assumption; apply Bl4; lia).
      apply (HK e s3 m3 (rg (e_out e) EAX)).
      eexists _, _, _, _. split; [exact I4|]. split; [|split].
      - cbn [the_vars Jit32Frame.the_vars a_oret]. apply (stored_agree _ m1 m3 _ _ RS); [rewrite Ea; apply agree_refl|exact (is_bytes _ _ _ _ _ I4)|lia|unfold W32 in *; lia|exact O5|exact L5|].
        intros x Hx. destruct void_dec as [Dr|Dr]; [pose proof ret_size as Rs; rewrite Dr in Rs, Hx; lia|]. destruct (ret_vars Dr) as (_ & V & _). apply own_pad; [exact Dr|lia].
      - apply (keep_out m1); [exact (keep_top mem m1 Kp S1)|]. intros x Hx. apply Hi. lia.
      - transitivity (ld4 m1 (B + v_pContext gcc conv)); [|exact (ctx_same mem m1 ctx S1 Cx)]. apply ld4_ext; [lia|unfold W32 in *; lia|]. intros x Hx. apply Hi. lia. }
    clear HK. replace (HasVarArgs conv) with vf by (symmetry; apply Hc). assert (Dg : gcc || vf = true \/ gcc || vf = false) by (destruct (gcc || vf); auto). destruct Dg as [Dg|Dg].
    + set (p := if gcc && in_mem rk then 4 else 0). assert (Hsp : c_pop orig_sig = p) by (cbn [c_pop Jit32HookSpec.orig_sig]; unfold popped, on_stack; rewrite Dg; reflexivity).
      set (q := if gcc then 0 else wm). assert (Hpq : p + q = wm) by (unfold p, q, wm; destruct gcc, (in_mem rk); reflexivity).
      assert (Rp : 0 <= p <= 4 /\ 0 <= q <= 4) by (unfold p, q, wm; destruct gcc, (in_mem rk); cbn; lia).
      rewrite Hsp in I2. assert (wt = 4) by (unfold wt; rewrite Dg; reflexivity). replace (sf + p) with (sf + p + n - n) in I2 by lia.
      eapply after_W; [exact I2|lia|unfold W32 in *; lia|]. clear I2. intros s2 I2.
      replace (if gcc || vf then [AAdd_Rm_ImmAuto ESP (og_clean gcc conv r ps c + 4) MOD_REG] else []) with [AAdd_Rm_ImmAuto ESP (og_clean gcc conv r ps c + 4) MOD_REG] by (rewrite Dg; reflexivity).
      cbn [app].
      assert (Hcl : og_clean gcc conv r ps c = T + wv + q). { unfold og_clean. rewrite Ms, pp_size_is. replace (HasVafmt conv) with vf by (symmetry; apply Hc). fold wv. fold wm. fold q. lia. }
      rewrite Hcl. unfold ESP at 1, MOD_REG. eapply (X_add_esp _ _ _ _ _ _ _ _ _ _ _ _ _ I2 _ (T + wv + q + 4) E); [reflexivity|cbn [asm_ok]; unfold rm_ok, int32_ok; lia|regs_cbn; apply w32_is; unfold W32 in *; lia|].
      regs_cbn. exact Fin.
    + assert (Hsp : c_pop orig_sig = wt + wm + T + wv) by (rewrite <- Ka; cbn [c_pop c_args Jit32HookSpec.orig_sig]; unfold popped, on_stack; rewrite Dg; reflexivity).
      rewrite Hsp in I2. replace (sf + (wt + wm + T + wv)) with (E - n) in I2 by lia.
      eapply after_W; [exact I2|lia|unfold W32 in *; lia|]. clear I2. intros s2 I2.
      replace (if gcc || vf then [AAdd_Rm_ImmAuto ESP (og_clean gcc conv r ps c + 4) MOD_REG] else []) with (@nil asm) by (rewrite Dg; reflexivity).
      cbn [app]. apply Fin. exact I2.
Qed.
Lemma over_range : 0 <= B + v_override_ret gcc conv r /\ B + v_override_ret gcc conv r + RS < W32 /\ E <= B + v_override_ret gcc conv r.
Proof.
  nums. destruct void_dec as [Dr|Dr].
  - destruct (void_vars Dr) as (_ & -> & _). unfold W32 in *. lia.
  - destruct (ret_vars Dr) as (_ & _ & V & _ & F1). pose proof bot_is as Bb. pose proof E_is as Eb.
    assert (E <= B + d - 28 - 3 * RS) by (destruct vf; lia). unfold W32 in *. lia.
Qed.
Lemma copy_apart : B + v_override_ret gcc conv r + N <= B + v_orig_ret gcc conv r.
Proof.
  nums. destruct void_dec as [Dr|Dr].
  - destruct (void_vars Dr) as (-> & -> & _ & ->). lia.
  - destruct (ret_vars Dr) as (_ & -> & -> & _). lia.
Qed.
Lemma oret_top x : B + v_orig_ret gcc conv r <= x < B + v_orig_ret gcc conv r + N -> x < B + d - 28.
Proof.
  intros Hx. nums. destruct void_dec as [Dr|Dr].
  - destruct (void_vars Dr) as (V & _ & _ & V4). lia.
  - destruct (ret_vars Dr) as (_ & V & _). lia.
Qed.
Lemma take_W s a m mem ctx l tr (F : sys) : at_ease s a m mem ctx ->
  (forall s' a' mem', at_ease s' a' (take_override rk the_vars m) mem' ctx -> W l s' tr F) -> W (og_else gcc conv r ++ l) s tr F.
Proof.
  intros (c & dx & b & df & I & Ag & Kp & Cx) HK. nums. pose proof ret_size as Rs. pose proof (is_bytes _ _ _ _ _ I) as Hb.
  pose proof oret_range as Or. pose proof over_range as Ov. pose proof copy_apart as Ca. pose proof oret_top as Ot. pose proof not_own_over as Nov.
  assert (Lv : ld mem (B + v_override_ret gcc conv r) (rsize rk) = ld m (B + v_override_ret gcc conv r) (rsize rk)).
  { apply ld_agree; [lia|unfold W32 in *; lia|exact Nov|exact Ag]. }
  assert (Fin : forall s' a' c' df' mem', is s' (R8 a' c' dx b E B (rg s0 ESI) (rg s0 EDI)) [] df' mem' ->
    (forall j, 0 <= j < N -> mem' (B + v_orig_ret gcc conv r + j) = mem (B + v_override_ret gcc conv r + j)) ->
    (forall x, ~ (B + v_orig_ret gcc conv r <= x < B + v_orig_ret gcc conv r + N) -> ~ (E - 8 <= x < E) -> mem' x = mem x) -> W l s' tr F).
  { intros s' a' c' df' mem' I' C1 C2. apply (HK s' a' mem'). eexists _, _, _, _. split; [exact I'|]. split; [|split].
    - unfold take_override. cbn [the_vars Jit32Frame.the_vars a_oret a_over].
      apply (copy_agree m mem mem' (B + v_orig_ret gcc conv r) (B + v_override_ret gcc conv r)); try assumption; try lia.
      intros x Ho Hx. apply C2; [exact Hx|]. intros Kx. apply Ho. apply own_stack. lia.
    - intros x Hx. rewrite C2; [apply Kp; exact Hx| |lia]. intros Kx. apply Ot in Kx. lia.
    - rewrite <- Cx. apply ld4_ext; [lia|unfold W32 in *; lia|]. intros x Hx. apply C2; [|lia]. intros Kx. apply Ot in Kx. lia. }
  pose proof small_ret as Sr.
  assert (Bnd : - 2 ^ 15 <= v_orig_ret gcc conv r <= 127 /\ - 2 ^ 15 <= v_override_ret gcc conv r <= 127).
  { destruct void_dec as [Dr|Dr]; [destruct (void_vars Dr) as (-> & -> & _); lia|destruct (ret_vars Dr) as (_ & -> & -> & _); lia]. }
  assert (Vneg : rk <> RVoid -> in_mem rk = false -> -128 <= v_override_ret gcc conv r < 0).
  { intros Dr Im. specialize (Sr Im). destruct (ret_vars Dr) as (_ & _ & -> & _). lia. }
  assert (Bit : forall n, rsize rk = n -> W ((BitwiseCopy_Setup ++ [ALea_DispRegImmAuto EDI EBP (v_orig_ret gcc conv r); ALea_DispRegImmAuto ESI EBP (v_override_ret gcc conv r)] ++ BitwiseCopy_Do (Z.of_nat n)) ++ l) s tr F).
  { intros n En. rewrite <- !app_assoc. cbn [app]. remember (S0 - 8) as bp eqn:Hbp. rewrite En in *.
    eapply (bitwise_W _ _ _ _ _ n s a c dx b E bp (bp + v_override_ret gcc conv r) (bp + v_orig_ret gcc conv r) (rg s0 ESI) (rg s0 EDI) [] df mem l tr F _ _ I); try lia.
    - intros s' m' l' G J KJ _. unreg. eapply (X_lea _ _ _ _ _ _ _ _ _ _ _ _ _ J 7 5 _ (bp + v_orig_ret gcc conv r)); [lia|lia|lia|unfold int32_ok; lia|regs_cbn; apply w32_is; unfold W32 in *; lia|]. regs_cbn. exact KJ.
    - intros s' m' l' G J KJ _. unreg. eapply (X_lea _ _ _ _ _ _ _ _ _ _ _ _ _ J 6 5 _ (bp + v_override_ret gcc conv r)); [lia|lia|lia|unfold int32_ok; lia|regs_cbn; apply w32_is; unfold W32 in *; lia|]. regs_cbn. exact KJ.
    - intros s' c' m' J M1 M2. eapply Fin; [exact J|exact M2|]. intros x X1 X2. apply M1; assumption. }
  unfold og_else, orig_from_override. destruct Hc as (_ & _ & (_ & _ & C) & _).
  destruct rk as [|n|n|n] eqn:Ek; cbn [rsize] in *.
  - destruct C as (C1 & C2 & C3 & C4). rewrite C1, C2, C4. cbn [Z.eqb negb]. apply (Bit 0%nat). reflexivity.
  - destruct C as [(C1 & C2 & -> & C3)|(C1 & C2 & C3 & C4 & C5 & C6)]; rewrite C1.
    + cbn [app]. remember (S0 - 8) as bp eqn:Hbp. unreg. specialize (Vneg ltac:(discriminate) eq_refl).
      eapply (X_load _ _ _ _ _ _ _ _ _ _ _ _ _ I 1 5 _ (bp + v_override_ret gcc conv r)); [lia|lia|lia|lia|lia|regs_cbn; apply w32_is; unfold W32 in *; lia|]. clear I. intros s1 I1. regs_cbn.
      eapply (X_store _ _ _ _ _ _ _ _ _ _ _ _ _ I1 5 1 _ (bp + v_orig_ret gcc conv r)); [lia|lia|lia|unfold int32_ok; lia|regs_cbn; apply w32_is; unfold W32 in *; lia|]. clear I1 s1. intros s1 I1. regs_cbn.
      eapply Fin; [exact I1| |].
      * intros j Hj. apply store_bytes with (n := 4%nat); try assumption; try (unfold W32 in *; lia). unfold ld4. apply Z.mod_small. apply ld_range. exact Hb.
      * intros x X1 X2. apply st4_out; unfold W32 in *; lia.
    + rewrite C4, C5. cbn [Z.eqb negb]. apply Bit. reflexivity.
  - destruct C as (C1 & C2 & C3 & C4 & C5 & C6). rewrite C1, C4, C5. cbn [Z.eqb negb]. apply Bit. reflexivity.
  - destruct C as (C1 & C2 & C3 & C4 & C5 & C6 & C7 & C8 & C9). rewrite C1, C6, C8. cbn [Z.eqb negb]. apply Bit. reflexivity.
Qed.
Lemma else_length : (length (og_else gcc conv r) <= 30)%nat.
Proof.
  unfold og_else, orig_from_override, call_assign, AlignBefore, AlignAfter, align4. pose proof (do_length (pi_size r)).
  repeat match goal with |- context [if ?x then _ else _] => lazymatch x with context [if _ then _ else _] => fail | _ => destruct x end end; repeat (rewrite ?app_length; cbn [length app BitwiseCopy_Setup push_this]); lia.
Qed.
Lemma call_length c : (length (og_call gcc conv k r ps c) <= 120 + 14 * length ps)%nat.
Proof.
  unfold og_call, og_push, og_target, og_after, AlignBefore, AlignAfter. rewrite (proj1 (mr_is _)), destroy_nil.
  rewrite !app_length. cbn [length]. rewrite ?app_length. pose proof (save_length (v_orig_ret gcc conv r)). pose proof (pp_length c).
  repeat match goal with |- context [length (if ?x then _ else _)] => destruct x end; cbn [length app]; repeat match goal with |- context [if ?x then _ else _] => destruct x end; cbn [length app]; lia.
Qed.
Lemma should_length : (length (og_should gcc conv) <= 10)%nat.
Proof. unfold og_should, ctx_call, push_this, pop_this. destruct gcc; cbn [length app]; lia. Qed.
Local Notation orig := (Jit32HookSpec.orig gcc vf u the_iface pks rk s0 the_vars E).
Lemma orig_W c s a m mem ctx l tr (K : (Z -> Z) -> sys) :
  int32_ok (k_fmt k) -> at_ease s a m mem ctx -> (forall tr' s' a' m' mem', at_ease s' a' m' mem' ctx -> W l s' tr' (K m')) ->
  W (og_list gcc conv k r ps c ++ l) s tr (orig ctx m K).
Proof.
  intros Hf Hs HK. pose proof Hs as (cc & dx & b & df & I & Ag & Kp & Cx). nums. pose proof else_length as L1. pose proof (call_length c) as L2. pose proof should_length as L3. pose proof ps_length as Pl.
  assert (J3 : int32_ok (off (og_else gcc conv r))) by (eapply (jump_ok _ 0%nat); lia).
  assert (J2 : int32_ok (og_d2 gcc conv k r ps c)).
  { unfold og_d2. eapply (jump_ok _ (length ps)); [|exact Pl]. rewrite app_length. cbn [length]. lia. }
  assert (J1 : int32_ok (off (og_mid gcc conv k r ps c))).
  { eapply (jump_ok _ (length ps)); [|exact Pl]. unfold og_mid. rewrite app_length. cbn [length]. rewrite app_length. cbn [length]. lia. }
  unfold og_list, og_status, Jit32HookSpec.orig. cbn [app]. rewrite <- app_assoc.
  assert (Sv : ld4 mem (B + v_status gcc conv) = status the_vars m) by (apply shared_word; [exact Ag|lia|lia]).
  unfold EAX at 1, EBP at 1.
  eapply (X_load _ _ _ _ _ _ _ _ _ _ _ _ _ I 0 5 _ (B + v_status gcc conv)); [lia|lia|lia|lia|lia|regs_cbn; apply w32_is; unfold W32 in *; lia|]. clear I Hs. rewrite Sv. intros s1 I1. regs_cbn.
  unfold MOD_REG at 1, EAX at 1.
  eapply (X_cmpi_j _ _ _ _ _ _ _ _ _ _ _ _ _ I1 _ 4 0 MRES_SUPERCEDE (off (og_mid gcc conv k r ps c)) (og_mid gcc conv k r ps c) (status the_vars m =? SUPERCEDE));
    [reflexivity|cbn [asm_ok]; unfold CC_Z, cond_ok; split; [lia|exact J1]|reflexivity|lia|unfold int32_ok, MRES_SUPERCEDE; lia|left; split; reflexivity|].
  clear I1 s1. intros s1 I1. assert (Hs1 : at_ease s1 (status the_vars m) m mem ctx) by (eexists _, _, _, _; split; [exact I1|auto]). clear I1.
  destruct (status the_vars m =? SUPERCEDE) eqn:Es.
  - eapply take_W; [exact Hs1|]. intros s2 a2 mem2 Hs2. eapply HK. exact Hs2.
  - unfold og_mid, og_should. rewrite <- app_assoc. cbn [app]. rewrite <- app_assoc.
    eapply (ctx_W 3 _ s1 _ m mem ctx _ tr); [exact loads3|exact Hs1|]. intros e s2 mem2 Hs2 _. clear s1 Hs1. pose proof Hs2 as (c2 & dx2 & b2 & df2 & I2 & Ag2 & Kp2 & Cx2).
    replace (og_call gcc conv k r ps c ++ [AJump_Imm32 (off (og_else gcc conv r))] ++ og_else gcc conv r ++ l)
      with ((og_call gcc conv k r ps c ++ [AJump_Imm32 (off (og_else gcc conv r))]) ++ og_else gcc conv r ++ l) by (rewrite <- app_assoc; reflexivity).
    unfold MOD_REG at 1, EAX at 1 2.
    eapply (X_test8_jz _ _ _ _ _ _ _ _ _ _ _ _ _ I2 _ 0 (og_d2 gcc conv k r ps c) (og_call gcc conv k r ps c ++ [AJump_Imm32 (off (og_else gcc conv r))]) (eax e mod 256 =? 0));
      [reflexivity|cbn [asm_ok]; unfold CC_Z, cond_ok; split; [lia|exact J2]|unfold og_d2; noff; reflexivity|lia|reflexivity|].
    intros s3 I3. assert (Hs3 : at_ease s3 (eax e) (after e) mem2 ctx) by (eexists _, _, _, _; split; [exact I3|auto]). clear I2 I3 s2 Hs2.
    destruct (eax e mod 256 =? 0).
    + eapply take_W; [exact Hs3|]. intros s4 a4 mem4 Hs4. eapply HK. exact Hs4.
    + rewrite <- app_assoc. cbn [app]. eapply original_W; [exact Hf|exact Hs3|]. intros f s4 mem4 a4 Hs4.
      eapply W_jmp; [reflexivity|exact J3|reflexivity|]. eapply HK. exact Hs4.
Qed.

(** ** The end *)
Lemma pop_if (t : bool) s a c dx b sp bp si di df mem l tr (F : sys) :
  is s (R8 a c dx b (sp - (if t then 4 else 0)) bp si di) [] df mem -> 4 <= sp < W32 ->
  (forall s' c', is s' (R8 a c' dx b sp bp si di) [] df mem -> W l s' tr F) -> W ((if t then [APop_Reg 1] else []) ++ l) s tr F.
Proof.
  intros I H K. destruct t; cbn [app].
  - eapply (X_pop _ _ _ _ _ _ _ _ _ _ _ _ _ I 1 sp); [lia|regs_cbn; apply w32_is; lia|]. intros s1 I1. regs_cbn. eapply K. exact I1.
  - eapply K. replace (sp - 0) with sp in I by lia. exact I.
Qed.
Lemma this_at (t : bool) e sf v df a c dx b sp bp si di mem o : is (e_in e) (R8 a c dx b sp bp si di) [] df (st4 mem sp v) ->
  sp = sf - 4 -> 4 <= sf -> sf + 4 <= W32 -> (t = true -> ld4 mem sf = o) -> (t = false -> c = o) -> this t (e_in e) = o.
Proof.
  intros Ie Hs H1 H2 T1 T2. unfold this. destruct t.
  - rewrite (arg_at (e_in e) _ _ _ 0 sf Ie) by (regs_cbn; unfold W32 in *; lia). rewrite ld4_diff by (unfold W32 in *; lia). apply T1. reflexivity.
  - destruct Ie as (G & _). unfold ECX. rewrite (G 1) by lia. apply T2. reflexivity.
Qed.
Lemma ret_word x : rk <> RVoid -> B + v_ret_ptr gcc conv r <= x < B + v_ret_ptr gcc conv r + 4 -> own x /\ E <= x.
Proof.
  intros Dr Hx. nums. destruct (ret_vars Dr) as (V & _ & _ & _ & V1). pose proof bot_is as Bb. pose proof E_is as Eb. pose proof ret_size as Rs.
  split; [apply own_ret; [exact Dr|lia]|]. destruct vf; lia.
Qed.
Definition retp (p : Z) (mem : Z -> Z) : Prop := rk <> RVoid -> ld4 mem (B + v_ret_ptr gcc conv r) = p.
Lemma retp_same p mem mem' : same_own mem mem' -> retp p mem -> retp p mem'.
Proof.
  intros H K Dr. rewrite <- (K Dr). nums. destruct (ret_vars Dr) as (V & _). apply ld4_ext; [unfold W32 in *; lia|unfold W32 in *; lia|]. intros x Hx. destruct (ret_word x Dr Hx). apply H; assumption.
Qed.
Local Notation ret_ptr := (Jit32HookSpec.ret_ptr gcc vf pks rk s0 the_vars E).
Lemma prep_W s a m mem ctx l tr (K : Z -> (Z -> Z) -> sys) :
  at_ease s a m mem ctx -> (forall p tr' s' a' m' mem', at_ease s' a' m' mem' ctx -> retp p mem' -> W l s' tr' (K p m')) ->
  W (PrepareReturn gcc conv r ++ l) s tr (ret_ptr ctx m K).
Proof.
  intros Hs HK. pose proof Hs as (c & dx & b & df & I & Ag & Kp & Cx). nums. pose proof ret_size as Rs. destruct void_dec as [Dr|Dr].
  { unfold PrepareReturn, Jit32HookSpec.ret_ptr. rewrite Dr in Rs. destruct Rs as [Rs _]. rewrite Rs. cbn [Z.eqb app].
    replace (match rk with RVoid => K 0 m | _ => _ end) with (K 0 m) by (rewrite Dr; reflexivity). eapply HK; [exact Hs|]. intros Y. contradiction. }
  destruct (ret_vars Dr) as (Vr & _). pose proof ret_word as Rw. 
  assert (R0 : (pi_size r =? 0) = false) by (apply Z.eqb_neq; destruct rk; [contradiction|tauto ..]).
  unfold PrepareReturn. rewrite R0. unfold Jit32HookSpec.ret_ptr.
  set (i := if OVERRIDE <=? s32 (status the_vars m) then x_over else x_orig).
  replace (match rk with RVoid => K 0 m | _ => _ end) with (call (virt_sig gcc) m (virt gcc ctx i) (fun e => K (eax e) (after e))) by (destruct rk; [contradiction|reflexivity ..]).
  assert (Hi : i = if s32 (status the_vars m) <? 2 then 2 else 1).
  { unfold i, OVERRIDE, x_over, x_orig. destruct (Z.leb_spec 2 (s32 (status the_vars m))); destruct (Z.ltb_spec (s32 (status the_vars m)) 2); lia. }
  unfold push_this, pop_this. rewrite <- !app_assoc. cbn [app]. unfold ECX, EBP, EAX, EDX, MOD_REG, MOD_MEM_REG.
  eapply (X_load _ _ _ _ _ _ _ _ _ _ _ _ _ I 1 5 _ (B + v_pContext gcc conv)); [lia|lia|lia|lia|lia|regs_cbn; apply w32_is; unfold W32 in *; lia|]. rewrite Cx. clear s Hs I. intros s1 I1. regs_cbn.
  eapply (push_if gcc 1 ctx); [exact I1|lia|reflexivity|lia|]. clear I1 s1. intros s1 mem1 I1 O1 T1.
  set (wt := if gcc then 4 else 0) in *. assert (Rt : 0 <= wt <= 4) by (unfold wt; destruct gcc; lia).
  assert (Bl1 : below mem mem1) by (apply (below_by _ _ _ _ O1); lia).
  assert (Ag1 := below_agree _ _ _ Bl1 Ag).
  assert (Sv : ld4 mem1 (B + v_status gcc conv) = status the_vars m) by (apply shared_word; [exact Ag1|lia|lia]).
  unfold CC_L, MRES_OVERRIDE. eapply (X_setl _ _ _ _ _ _ _ _ _ _ _ _ _ I1 5 _ (B + v_status gcc conv) 2 (s32 (status the_vars m) <? 2));
    [lia|lia|lia|lia|unfold int8_ok; lia|regs_cbn; apply w32_is; unfold W32 in *; lia|rewrite Sv; reflexivity|]. clear I1 s1. intros s1 I1. regs_cbn.
  eapply (X_lea_mult _ _ _ _ _ _ _ _ _ _ _ _ _ I1 0 0 2 4 (4 * i)); [lia|lia|lia|lia|unfold int32_ok; lia|regs_cbn; rewrite Hi; destruct (s32 (status the_vars m) <? 2); reflexivity|]. clear I1 s1. intros s1 I1. regs_cbn.
  eapply (X_mov_rm _ _ _ _ _ _ _ _ _ _ _ _ _ I1 2 1); [lia|lia|lia|lia|]. clear I1 s1. intros s1 I1. regs_cbn.
  eapply (X_add_rr _ _ _ _ _ _ _ _ _ _ _ _ _ I1 2 0); [lia|lia|]. clear I1 s1. intros s1 I1. regs_cbn.
  eapply (X_mov_rm _ _ _ _ _ _ _ _ _ _ _ _ _ I1 2 2); [lia|lia|lia|lia|]. clear I1 s1. intros s1 I1. regs_cbn.
  assert (Ka : c_args (virt_sig gcc) = wt) by reflexivity.
  eapply (call_W (virt_sig gcc) m _ _ 2 _ s1 tr _ _ _ mem1 I1); rewrite ?Ka; regs_cbn; try lia.
  - cbn [c_align Jit32HookSpec.virt_sig]. clear - Nem Rt. assert (wt mod 4 = 0) by (unfold wt; destruct gcc; reflexivity). modlia.
  - exact Ag1.
  - apply agree_refl.
  - intros e v Te Ie. regs_cbn. split; [exact Te|]. eapply (this_at gcc e (E - wt) v); [exact Ie|reflexivity|lia|unfold W32 in *; lia| |reflexivity].
    intros Y. assert (wt = 4) by (unfold wt; rewrite Y; reflexivity). replace (E - wt) with (E - 4) by lia. apply T1. exact Y.
  - intros e a1 c5 dx1 f1 df1 m1 I2 Ea Eb Ed Ef El So. regs_cbn. clear I1 s1.
    cbn [c_float Jit32HookSpec.virt_sig] in El. replace f1 with (@nil Z) in I2 by (destruct f1; [reflexivity|discriminate El]).
    cbn [c_pop Jit32HookSpec.virt_sig] in I2. replace (E - wt + 0) with (E - wt) in I2 by lia. unfold wt in I2.
    eapply (pop_if gcc); [exact I2|unfold W32 in *; lia|]. clear I2. intros s2 c2 I2.
    eapply (X_store _ _ _ _ _ _ _ _ _ _ _ _ _ I2 5 0 _ (B + v_ret_ptr gcc conv r)); [lia|lia|lia|unfold int32_ok; lia|regs_cbn; apply w32_is; unfold W32 in *; lia|]. clear I2 s2. intros s2 I2. regs_cbn.
    pose proof (is_ok _ _ _ _ _ I2) as (Oka & _). regs_cbn.
    assert (S1 : same_own mem m1) by (intros x Ox Hx; rewrite So by assumption; apply Bl1; lia).
    eapply (HK (eax e)).
    + eexists _, _, _, _. split; [exact I2|]. split; [|split].
      * rewrite Ea. apply (agree_out _ m1); [|apply agree_refl]. intros x Hx. apply st4_out; [unfold W32 in *; lia|unfold W32 in *; lia|]. intros Y. apply Hx. apply Rw; assumption.
      * apply keep_sto; [exact (keep_top mem m1 Kp S1)|unfold W32 in *; lia|unfold W32 in *; lia|left; lia].
      * rewrite ld4_diff by (unfold W32 in *; lia). exact (ctx_same mem m1 ctx S1 Cx).
    + intros _. rewrite Eb. apply ld4_same; [unfold W32 in *; lia|unfold W32 in *; lia|exact Oka].
Qed.

Lemma end_W s a m mem ctx p l tr (K : event -> sys) :
  int32_ok (k_sh k) -> int32_ok (k_end k) -> at_ease s a m mem ctx -> retp p mem ->
  (forall e s' a' mem', at_ease s' a' (after e) mem' ctx -> retp p mem' -> W l s' (tr ++ [e]) (K e)) ->
  W (CallEndContext gcc conv k ++ l) s tr (call (end_sig gcc) m (end_context gcc the_iface ctx) K).
Proof.
  intros Hk1 Hk2 Hs Hp HK. pose proof Hs as (c & dx & b & df & I & Ag & Kp & Cx). nums.
  unfold CallEndContext. rewrite <- !app_assoc. cbn [app]. unfold EBP, EAX.
  eapply (X_load _ _ _ _ _ _ _ _ _ _ _ _ _ I 0 5 _ (B + v_pContext gcc conv)); [lia|lia|lia|lia|lia|regs_cbn; apply w32_is; unfold W32 in *; lia|]. rewrite Cx. clear s Hs I. intros s1 I1. regs_cbn.
  pose proof (is_ok _ _ _ _ _ I1) as (Okc & _). regs_cbn.
  eapply (X_push _ _ _ _ _ _ _ _ _ _ _ _ _ I1 0 (E - 4)); [lia|regs_cbn; apply w32_is; unfold W32 in *; lia|]. clear I1 s1. intros s1 I1. regs_cbn.
  set (mem1 := st4 mem (E - 4) ctx) in *. set (wt := if gcc then 4 else 0). assert (Rt : 0 <= wt <= 4) by (unfold wt; destruct gcc; lia).
  assert (X : forall l', (forall s' c' mem2, is s' (R8 ctx c' dx b (E - 4 - wt) B (rg s0 ESI) (rg s0 EDI)) [] df mem2 -> (forall x, ~ (E - 8 <= x < E - 4) -> mem2 x = mem1 x) ->
     (gcc = true -> ld4 mem2 (E - 8) = w32 (k_sh k)) -> (gcc = false -> c' = w32 (k_sh k)) -> W l' s' tr (call (end_sig gcc) m (end_context gcc the_iface ctx) K)) ->
     W ((if gcc then APush_Imm32 (k_sh k) else AMov_Reg_Imm32 ECX (k_sh k)) :: l') s1 tr (call (end_sig gcc) m (end_context gcc the_iface ctx) K)).
  { intros l' KK. assert (Dg : gcc = true \/ gcc = false) by (destruct gcc; auto). destruct Dg as [Dg|Dg].
    - replace (if gcc then APush_Imm32 (k_sh k) else AMov_Reg_Imm32 ECX (k_sh k)) with (APush_Imm32 (k_sh k)) by (rewrite Dg; reflexivity).
      assert (wt = 4) by (unfold wt; rewrite Dg; reflexivity).
      eapply (X_push_imm _ _ _ _ _ _ _ _ _ _ _ _ _ I1 _ (E - 8)); [exact Hk1|regs_cbn; apply w32_is; unfold W32 in *; lia|]. intros s2 I2. regs_cbn.
      replace (E - 8) with (E - 4 - wt) in I2 at 1 by lia. eapply KK; [exact I2| | |].
      + intros x Hx. apply st4_out; unfold W32 in *; lia.
      + intros _. apply ld4_same; [lia|unfold W32 in *; lia|apply w32_ok].
      + intros Y. congruence.
    - replace (if gcc then APush_Imm32 (k_sh k) else AMov_Reg_Imm32 ECX (k_sh k)) with (AMov_Reg_Imm32 ECX (k_sh k)) by (rewrite Dg; reflexivity).
      assert (wt = 0) by (unfold wt; rewrite Dg; reflexivity). unfold ECX.
      eapply (X_movi _ _ _ _ _ _ _ _ _ _ _ _ _ I1 1); [lia|exact Hk1|]. intros s2 I2. regs_cbn.
      replace (E - 4) with (E - 4 - wt) in I2 at 1 by lia. eapply KK; [exact I2| | |].
      + intros x Hx. reflexivity.
      + intros Y. congruence.
      + intros _. reflexivity. }
  apply X. clear X I1 s1. intros s1 c1 mem2 I1 O2 T1 T2.
  eapply (X_movi _ _ _ _ _ _ _ _ _ _ _ _ _ I1 0); [lia|exact Hk2|]. clear I1 s1. intros s1 I1. regs_cbn.
  assert (O3 : forall x, ~ (E - 8 <= x < E) -> mem2 x = mem x).
  { intros x Hx. rewrite O2 by lia. apply st4_out; unfold W32 in *; lia. }
  assert (Bl2 : below mem mem2) by (apply (below_by _ _ _ _ O3); lia).
  assert (Ka : c_args (end_sig gcc) = 4 + wt) by (unfold wt; destruct gcc; reflexivity).
  eapply (call_W (end_sig gcc) m _ _ 0 _ s1 tr _ _ _ mem2 I1); rewrite ?Ka; regs_cbn; try lia.
  - cbn [c_align Jit32HookSpec.end_sig]. clear - Nem Rt. assert (wt mod 4 = 0) by (unfold wt; destruct gcc; reflexivity). modlia.
  - exact (below_agree _ _ _ Bl2 Ag).
  - apply agree_refl.
  - intros e v Te Ie. regs_cbn. split; [exact Te|]. split.
    + eapply (this_at gcc e (E - 4 - wt) v); [exact Ie|reflexivity|lia|unfold W32 in *; lia| |intros Y; apply T2; exact Y].
      intros Y. assert (wt = 4) by (unfold wt; rewrite Y; reflexivity). replace (E - 4 - wt) with (E - 8) by lia. apply T1. exact Y.
    + unfold marg. rewrite (arg_at (e_in e) _ _ _ _ (E - 4) Ie).
      * rewrite ld4_diff by (unfold W32 in *; lia). replace (ld4 mem2 (E - 4)) with (ld4 mem1 (E - 4)) by (apply ld4_ext; [lia|unfold W32 in *; lia|]; intros x Hx; symmetry; apply O2; lia).
        apply ld4_same; [lia|unfold W32 in *; lia|exact Okc].
      * regs_cbn. unfold wt. destruct gcc; lia.
      * unfold W32 in *; lia.
  - intros e a1 c5 dx1 f1 df1 m1 I2 Ea Eb Ed Ef El So. regs_cbn. clear I1 s1.
    cbn [c_float Jit32HookSpec.end_sig] in El. replace f1 with (@nil Z) in I2 by (destruct f1; [reflexivity|discriminate El]).
    assert (S1 : same_own mem m1) by (intros x Ox Hx; rewrite So by assumption; apply Bl2; lia).
    assert (Fin : forall s2, is s2 (R8 a1 c5 dx1 b E B (rg s0 ESI) (rg s0 EDI)) [] df1 m1 -> W l s2 (tr ++ [e]) (K e)).
    { intros s2 I3. eapply HK; [|exact (retp_same _ _ _ S1 Hp)]. eexists _, _, _, _. split; [exact I3|]. split; [rewrite Ea; apply agree_refl|]. split; [exact (keep_top mem m1 Kp S1)|exact (ctx_same mem m1 ctx S1 Cx)]. }
    assert (Dg : gcc = true \/ gcc = false) by (destruct gcc; auto). destruct Dg as [Dg|Dg].
    + replace (if gcc then [AAdd_Rm_Imm8 ESP 8 MOD_REG] else []) with [AAdd_Rm_Imm8 ESP 8 MOD_REG] by (rewrite Dg; reflexivity). cbn [app].
      assert (wt = 4) by (unfold wt; rewrite Dg; reflexivity).
      assert (Hp0 : c_pop (end_sig gcc) = 0) by (cbn [c_pop Jit32HookSpec.end_sig]; rewrite Dg; reflexivity). rewrite Hp0 in I2.
      unfold ESP at 1, MOD_REG. eapply (X_add_esp _ _ _ _ _ _ _ _ _ _ _ _ _ I2 _ 8 E); [reflexivity|cbn [asm_ok]; unfold rm_ok, int8_ok; lia|regs_cbn; apply w32_is; unfold W32 in *; lia|].
      regs_cbn. exact Fin.
    + replace (if gcc then [AAdd_Rm_Imm8 ESP 8 MOD_REG] else []) with (@nil asm) by (rewrite Dg; reflexivity). cbn [app].
      assert (wt = 0) by (unfold wt; rewrite Dg; reflexivity).
      assert (Hp0 : c_pop (end_sig gcc) = 4 + wt) by (cbn [c_pop Jit32HookSpec.end_sig]; rewrite Dg; lia). rewrite Hp0 in I2.
      apply Fin. replace (E - 4 - wt + (4 + wt)) with E in I2 by lia. exact I2.
Qed.

(** *** Objects among the parameters; the incoming parameters need not be kept any more *)
Definition ending (n : Z) (s : st) (m mem : Z -> Z) (p : Z) : Prop :=
  exists a c dx b df, is s (R8 a c dx b (E - n) B (rg s0 ESI) (rg s0 EDI)) [] df mem /\ agree m mem /\ keep0 mem /\ retp p mem.
Lemma align0_is : 0 <= align0 gcc < 16 /\ (align0 gcc + (if gcc then 4 else 0)) mod 16 = 0.
Proof. unfold align0. destruct (align_spec 0 gcc false) as [A1 A2]; [lia|]. rewrite !Z.add_0_r in A2. split; assumption. Qed.
Lemma low_own p mem mem' : (forall x, own x -> E <= x -> x < base0 gcc vf rk s0 -> mem' x = mem x) -> keep0 mem -> retp p mem -> keep0 mem' /\ retp p mem'.
Proof.
  intros H K0 Rp. nums. split.
  - intros y Hy. rewrite H; [apply K0; exact Hy|apply own_top; lia|lia|lia].
  - intros Dr. rewrite <- (Rp Dr). destruct (ret_vars Dr) as (V & _). apply ld4_ext; [unfold W32 in *; lia|unfold W32 in *; lia|]. intros y Hy. destruct (ret_word y Dr Hy). apply H; [assumption|assumption|].
    pose proof (total_pos pks). assert (0 <= (if gcc || vf then 8 else 4)) by (destruct (gcc || vf); lia). lia.
Qed.
Local Notation destroy := (Jit32HookSpec.destroy gcc vf pks rk s0 the_vars E).
Lemma dtors_W n : n = align0 gcc -> forall qs qks o s m mem p l tr (K : (Z -> Z) -> sys),
  Forall2 param_class qs qks -> B + o >= base0 gcc vf rk s0 -> B + o + total qks <= base0 gcc vf rk s0 + T ->
  ending n s m mem p -> (forall tr' s' m' mem', ending n s' m' mem' p -> W l s' tr' (K m')) ->
  W (param_dtors gcc o qs ++ l) s tr (destroy qks (B + o) m K).
Proof.
  intros Hn. pose proof align0_is as [An Am]. rewrite <- Hn in An, Am.
  induction qs as [|q qs IH]; intros qks o s m mem p l tr K Hq Ho1 Ho2 Hs HK; inversion Hq as [|q' qk qs' qks' Cq Cqs]; subst; cbn [param_dtors Jit32HookSpec.destroy].
  { cbn [app]. eapply HK. exact Hs. }
  destruct (class_size _ _ Cq) as [Sz Sl]. rewrite total_cons in Ho2. pose proof (total_pos qks') as Tp. rewrite Sz.
  assert (Next : forall tr' s' m' mem', ending (align0 gcc) s' m' mem' p -> W (param_dtors gcc (o + slot qk) qs ++ l) s' tr' (destroy qks' (B + o + slot qk) m' K)).
  { intros tr' s' m' mem' Hs'. replace (B + o + slot qk) with (B + (o + slot qk)) by lia. eapply IH; [exact Cqs|lia|lia|exact Hs'|exact HK]. }
  clear IH HK. rewrite <- app_assoc.
  destruct Cq as (Fb & [(C1 & C2 & C3 & ->)|(C1 & C2 & C3 & C4 & [(C5 & C6 & C7 & C8)|[(C5 & C6 & C7 & C8)|(C5 & C6 & C7 & C8 & C9)]])]).
  - cbn [pk_dtor]. rewrite C1, andb_false_r. cbn [andb app]. eapply Next. exact Hs.
  - rewrite C7, C5. cbn [PassType_Basic PassType_Object Z.eqb andb app]. eapply Next. exact Hs.
  - rewrite C7, C5. cbn [PassType_Float PassType_Object Z.eqb andb app]. eapply Next. exact Hs.
  - rewrite C5, C1, Fb. change (PassType_Object =? PassType_Object) with true. cbn [andb negb]. rewrite !andb_true_r.
    destruct (has (pi_flags q) PassFlag_ODtor); cbn [andb]; [destruct C9 as [-> Hd]|rewrite C9; cbn [app]; eapply Next; exact Hs].
    pose proof Hs as (a & c & dx & b & df & I & Ag & K0 & Rp). nums.
    unfold push_this, pop_this. rewrite <- !app_assoc. cbn [app]. unfold ECX, EBP, EAX.
    assert (Ro : 0 <= (if gcc || vf then 8 else 4) <= 8) by (destruct (gcc || vf); lia).
    eapply (X_lea _ _ _ _ _ _ _ _ _ _ _ _ _ I 1 5 _ (B + o)); [lia|lia|lia|unfold int32_ok; lia|regs_cbn; apply w32_is; unfold W32 in *; lia|]. clear s Hs I. intros s1 I1. regs_cbn.
    eapply (X_movi _ _ _ _ _ _ _ _ _ _ _ _ _ I1 0); [lia|exact Hd|]. clear I1 s1. intros s1 I1. regs_cbn.
    eapply (push_if gcc 1 (B + o)); [exact I1|lia|reflexivity|lia|]. clear I1 s1. intros s1 mem1 I1 O1 T1.
    set (wt := if gcc then 4 else 0) in *. assert (Rt : 0 <= wt <= 4) by (unfold wt; destruct gcc; lia).
    assert (Bl1 : below mem mem1) by (apply (below_by _ _ _ _ O1); lia).
    assert (Ka : c_args (dtor_sig gcc) = wt) by reflexivity.
    eapply (call_but_W (B + o, slot qk) (dtor_sig gcc) m _ _ 0 _ s1 tr _ _ _ mem1 I1); rewrite ?Ka; regs_cbn; try lia.
    + cbn [c_align dtor_sig]. clear - Nem Am. modlia.
    + exact (below_agree _ _ _ Bl1 Ag).
    + apply agree_refl.
    + intros e v Te Ie. regs_cbn. split; [exact Te|]. eapply (this_at gcc e (E - align0 gcc - wt) v); [exact Ie|reflexivity|lia|unfold W32 in *; lia| |reflexivity].
      intros Y. assert (wt = 4) by (unfold wt; rewrite Y; reflexivity). replace (E - align0 gcc - wt) with (E - align0 gcc - 4) by lia. apply T1. exact Y.
    + intros e a1 c5 dx1 f1 df1 m1 I2 Ea Eb Ed Ef El So. regs_cbn. clear I1 s1.
      cbn [c_float dtor_sig] in El. replace f1 with (@nil Z) in I2 by (destruct f1; [reflexivity|discriminate El]).
      cbn [c_pop dtor_sig] in I2. replace (E - align0 gcc - wt + 0) with (E - align0 gcc - wt) in I2 by lia. unfold wt in I2.
      eapply (pop_if gcc); [exact I2|unfold W32 in *; lia|]. clear I2. intros s2 c2 I2. eapply Next.
      destruct (low_own p mem m1) as [K1 R1]; [|exact K0|exact Rp|].
      { intros x Ox Hx Hx2. rewrite So; [apply Bl1; lia|exact Ox|exact Hx|]. unfold inside. cbn [fst snd]. lia. }
      eexists _, _, _, _, _. split; [exact I2|]. split; [rewrite Ea; apply agree_refl|]. split; assumption.
Qed.
Lemma destroy_W s a m mem ctx p l tr (K : (Z -> Z) -> sys) :
  at_ease s a m mem ctx -> retp p mem -> (forall tr' s' m' mem', ending 0 s' m' mem' p -> W l s' tr' (K m')) ->
  W (destroy_params gcc conv r ps ++ l) s tr (destroy pks (base0 gcc vf rk s0) m K).
Proof.
  intros (c & dx & b & df & I & Ag & Kp & Cx) Hp HK. nums. pose proof align0_is as [An _].
  unfold destroy_params. rewrite <- !app_assoc. eapply before_W; [exact I|lia|lia|]. clear s I. intros s1 I1.
  rewrite <- Nb. eapply (dtors_W (align0 gcc) eq_refl ps pks _ s1 m mem p); [apply Hc|lia|lia| |].
  - eexists _, _, _, _, _. split; [exact I1|]. split; [exact Ag|]. split; [intros x Hx; apply Kp; lia|exact Hp].
  - intros tr' s' m' mem' (a2 & c2 & dx2 & b2 & df2 & I2 & Ag2 & K2 & Rp2). eapply after_W; [exact I2|lia|unfold W32 in *; lia|]. intros s2 I3.
    eapply HK. eexists _, _, _, _, _. replace (E - 0) with E by lia. split; [exact I3|]. split; [exact Ag2|]. split; assumption.
Qed.

(** *** The result and the return *)
Lemma ld_w32 n : forall m a, ld m (w32 a) n = ld m a n.
Proof.
  induction n as [|n IH]; intros m a; [reflexivity|]. cbn [ld]. f_equal; [f_equal; unfold w32; apply Z.mod_mod; discriminate|].
  f_equal. rewrite <- IH. rewrite <- (IH m (a + 1)). f_equal. apply w32_idem_l.
Qed.
Definition result_in (a dx : Z) (f : list Z) (mem : Z -> Z) (p : Z) : Prop :=
  match rk with
  | RVoid => f = []
  | RInt n => f = [] /\ (a + W32 * dx) mod 256 ^ Z.of_nat n = ld mem p n
  | RFloat n => f = [fload u n (ld mem p n)]
  | RMem _ => f = [] /\ a = target0 gcc vf s0
  end.
Local Notation source := (Jit32HookSpec.source gcc vf pks rk s0 the_vars).
Local Notation target_ok := (Jit32HookSpec.target_ok gcc vf pks rk s0).
Local Notation delivered := (Jit32HookSpec.delivered gcc vf rk s0).
Lemma source_dec p : source p \/ ~ source p.
Proof.
  unfold Jit32HookSpec.source. pose proof place_dec as Pd. destruct rk as [| | |n]; [left; exact Logic.I ..|]. destruct (Pd p) as [Y|Y]; [|right; tauto].
  assert (X : p + Z.of_nat n <= target0 gcc vf s0 \/ target0 gcc vf s0 + Z.of_nat n <= p \/ ~ (p + Z.of_nat n <= target0 gcc vf s0 \/ target0 gcc vf s0 + Z.of_nat n <= p)) by lia.
  tauto.
Qed.
Lemma low_bits x y n : (n = 1 \/ n = 2 \/ n = 4)%nat -> (x + W32 * y) mod 256 ^ Z.of_nat n = x mod 256 ^ Z.of_nat n.
Proof.
  intros H. replace (x + W32 * y) with (x + (W32 / 256 ^ Z.of_nat n * y) * 256 ^ Z.of_nat n); [apply Z.mod_add; destruct H as [-> |[-> | ->]]; discriminate|].
  destruct H as [-> |[-> | ->]].
  - change (W32 / 256 ^ Z.of_nat 1) with 16777216. change (256 ^ Z.of_nat 1) with 256. change W32 with 4294967296. lia.
  - change (W32 / 256 ^ Z.of_nat 2) with 65536. change (256 ^ Z.of_nat 2) with 65536. change W32 with 4294967296. lia.
  - change (W32 / 256 ^ Z.of_nat 4) with 1. change (256 ^ Z.of_nat 4) with 4294967296. change W32 with 4294967296. lia.
Qed.
Lemma copyback_W n s a dx b df m mem p l tr (F : sys) : rk = RMem n -> target_ok -> source p ->
  is s (R8 a p dx b E B (rg s0 ESI) (rg s0 EDI)) [] df mem -> agree m mem -> keep0 mem ->
  (forall s' a c dx b f df mem', is s' (R8 a c dx b E B (rg s0 ESI) (rg s0 EDI)) f df mem' -> result_in a dx f mem' p ->
     agree (delivered p m) mem' -> keep0 mem' -> W l s' tr F) ->
  W (BitwiseCopy_Setup ++ AMov_Reg_Rm_DispAuto EDI 5 (v_memret_addr gcc conv r) :: AMov_Reg_Rm ESI 1 MOD_REG :: BitwiseCopy_Do (Z.of_nat n) ++
     AMov_Reg_Rm_DispAuto 0 5 (v_memret_addr gcc conv r) :: l) s tr F.
Proof.
  intros Ek Tok Src I Ag K0 HK. nums. pose proof (is_bytes _ _ _ _ _ I) as Hb. pose proof (is_ok _ _ _ _ _ I) as (_ & Okp & _). regs_cbn.
  assert (Im : in_mem rk = true) by (rewrite Ek; reflexivity). assert (Vm : 12 <= v_memret_addr gcc conv r <= 16) by (rewrite (memret_off Im); destruct gcc, vf; lia).
  assert (En : N = Z.of_nat n) by (rewrite Ek; reflexivity).
  unfold Jit32HookSpec.source in Src. unfold Jit32HookSpec.target_ok in Tok. rewrite Ek in Src, Tok. rewrite <- Ek in Src, Tok. unfold Jit32HookSpec.place in Src.
  set (t0 := target0 gcc vf s0) in *.
  destruct Src as ((P0 & P1 & P2) & P3). destruct Tok as (T1 & T2). rewrite depth_is in T2. rewrite En in *. rewrite Im in Nb0.
  assert (N1 : 1 <= Z.of_nat n) by (pose proof ret_size as Rs; rewrite Ek in Rs; cbn [rsize] in Rs; lia).
  assert (T0 : 0 <= t0). { unfold t0, target0, place_at, arg. apply ld4_range. exact (is_bytes _ _ _ _ _ (is_self s0 (proj1 He))). }
  assert (Wd : W32 = 4294967296) by reflexivity.
  assert (Keep : forall m', (forall x, ~ (t0 <= x < t0 + Z.of_nat n) -> ~ (E - 8 <= x < E) -> m' x = mem x) -> keep0 m').
  { intros m' H x Hx. rewrite H; [apply K0; exact Hx| |lia]. destruct (gcc || vf); lia. }
  assert (KT : forall m', keep0 m' -> ld4 m' (B + v_memret_addr gcc conv r) = t0) by (intros m' H; apply keep0_target; [exact H|exact Im]).
  assert (Ow : forall x, E - 8 <= x < E -> own x). { intros x Hx. apply own_stack; lia. }
  assert (Pap : p + Z.of_nat n <= E - 8 \/ E <= p). { assert (X : p + Z.of_nat n <= E - 8 \/ E <= p \/ exists x, p <= x < p + Z.of_nat n /\ E - 8 <= x < E) by (destruct (Z_le_gt_dec (E - 8) p); [|assert (E - 8 < p + Z.of_nat n \/ p + Z.of_nat n <= E - 8) by lia]; [destruct (Z_lt_ge_dec p E); [right; right; exists p; lia|lia]|destruct (Z_lt_ge_dec (E - 8) (p + Z.of_nat n)); [right; right; exists (E - 8); lia|lia]]). destruct X as [X|[X|(x & X1 & X2)]]; [lia|lia|]. exfalso. apply (P2 x X1), Ow, X2. }
  eapply (bitwise_W _ _ _ _ _ n s a p dx b E B p t0 _ _ [] df mem); [exact I|lia|lia|lia|exact T0|exact T1|exact P0|lia|exact P3|destruct (gcc || vf); lia|exact Pap| | |].
  - intros s' m' l' G J KJ Hm. unfold EDI. eapply (X_load _ _ _ _ _ _ _ _ _ _ _ _ _ J 7 5 _ (B + v_memret_addr gcc conv r)); [lia|lia|lia|lia|lia|regs_cbn; apply w32_is; lia|].
    rewrite KT by (apply Keep; intros x _ Hx; apply Hm; exact Hx). intros s2 I2. regs_cbn. apply KJ. exact I2.
  - intros s' m' l' G J KJ _. eapply (X_mov_rr _ _ _ _ _ _ _ _ _ _ _ _ _ J 6 1); [lia|lia|]. intros s2 I2. regs_cbn. apply KJ. exact I2.
  - clear s I. intros s c' m' I M1 M2. assert (K1 : keep0 m') by (apply Keep; exact M1).
    eapply (X_load _ _ _ _ _ _ _ _ _ _ _ _ _ I 0 5 _ (B + v_memret_addr gcc conv r)); [lia|lia|lia|lia|lia|regs_cbn; apply w32_is; lia|].
    rewrite (KT _ K1). intros s2 I2. regs_cbn. eapply HK; [exact I2| | |exact K1].
    + unfold result_in. rewrite Ek. split; reflexivity.
    + replace (delivered p m) with (sto m t0 n (ld m p n)) by (unfold Jit32HookSpec.delivered; rewrite Ek; reflexivity). apply (copy_agree m mem m' t0 p n); [exact Ag|exact Hb|exact T0|lia|exact P0|lia| |exact M2|].
      * apply ld_agree; [exact P0|lia|exact P2|exact Ag].
      * intros x X1 X2. apply M1; [exact X2|]. intros X3. apply X1, Ow, X3.
Qed.
Lemma doreturn_W s m mem p l tr (F : sys) : target_ok -> source p -> ending 0 s m mem p ->
  (forall s' a c dx b f df mem', is s' (R8 a c dx b E B (rg s0 ESI) (rg s0 EDI)) f df mem' -> result_in a dx f mem' p ->
     agree (delivered p m) mem' -> keep0 mem' -> W l s' tr F) ->
  W (DoReturn gcc conv r ++ l) s tr F.
Proof.
  intros Tok Src (a & c & dx & b & df & I & Ag & K0 & Rp) HK. nums. replace (E - 0) with E in I by lia. pose proof ret_size as Rs. pose proof (is_bytes _ _ _ _ _ I) as Hb.
  assert (HK' : in_mem rk = false -> forall s' a c dx b f df, is s' (R8 a c dx b E B (rg s0 ESI) (rg s0 EDI)) f df mem -> result_in a dx f mem p -> W l s' tr F).
  { intros Im s' a' c' dx' b' f' df' J Rj. eapply HK; [exact J|exact Rj| |exact K0]. unfold Jit32HookSpec.delivered. destruct rk; (exact Ag || discriminate Im). }
  destruct void_dec as [Dr|Dr].
  { unfold DoReturn. rewrite Dr in Rs. destruct Rs as [-> _]. cbn [Z.eqb app]. eapply HK'; [rewrite Dr; reflexivity|exact I|]. unfold result_in. rewrite Dr. reflexivity. }
  destruct (ret_vars Dr) as (Vr & _). specialize (Rp Dr).
  assert (R0 : (pi_size r =? 0) = false) by (apply Z.eqb_neq; destruct rk; [contradiction|tauto ..]).
  unfold DoReturn. cbv zeta. rewrite R0, retmem. rewrite <- app_assoc. cbn [app]. unfold ECX, EBP, EAX, EDX, MOD_MEM_REG.
  eapply (X_load _ _ _ _ _ _ _ _ _ _ _ _ _ I 1 5 _ (B + v_ret_ptr gcc conv r)); [lia|lia|lia|lia|lia|regs_cbn; apply w32_is; unfold W32 in *; lia|]. rewrite Rp. clear s I. intros s1 I1. regs_cbn.
  pose proof (is_ok _ _ _ _ _ I1) as (_ & Okp & _). regs_cbn.
  assert (Four : forall n, rk = RInt n -> (n = 1 \/ n = 2 \/ n = 4)%nat -> W (AMov_Reg_Rm 0 1 0 :: l) s1 tr F).
  { intros n Ek Hn. eapply (X_mov_rm _ _ _ _ _ _ _ _ _ _ _ _ _ I1 0 1); [lia|lia|lia|lia|]. intros s2 I2. regs_cbn. eapply HK'; [rewrite Ek; reflexivity|exact I2|]. unfold result_in. rewrite Ek. split; [reflexivity|].
    rewrite low_bits by exact Hn. unfold ld4. destruct Hn as [-> |[-> | ->]]; symmetry; [apply (Mach32Proofs.ld_low 1 3); exact Hb|apply (Mach32Proofs.ld_low 2 2); exact Hb|apply (Mach32Proofs.ld_low 4 0); exact Hb]. }
  pose proof (fun n Ek => copyback_W n s1 a dx b df m mem p l tr F Ek Tok Src I1 Ag K0 HK) as Cb.
  destruct Hc as (_ & _ & (_ & _ & C) & _).
  destruct rk as [|n|n|n] eqn:Ek; [contradiction| | |]; cbn [in_mem]; rewrite ?app_nil_r.
  - destruct C as [(C1 & C2 & -> & C3)|(C1 & C2 & C3 & C4 & C5 & C6)]; rewrite C1; [apply (Four 4%nat); [reflexivity|lia]|].
    assert (C8 : (pi_type r =? PassType_Float) = false /\ (pi_type r =? PassType_Basic) || (pi_type r =? PassType_Object) && has (pi_flags r) PassFlag_RetReg = true)
      by (destruct C3 as [-> |[-> ->]]; split; reflexivity).
    destruct C8 as [-> ->]. rewrite C5.
    assert (C7 : (n = 1 \/ n = 2 \/ n = 4)%nat \/ (n = 8)%nat) by lia. destruct C7 as [C7| ->].
    + replace (Z.of_nat n <=? 4) with true by (symmetry; apply Z.leb_le; lia). apply (Four n); [reflexivity|exact C7].
    + change (Z.of_nat 8 <=? 4) with false. change (Z.of_nat 8 <=? 8) with true. cbn [app].
      eapply (X_mov_rm _ _ _ _ _ _ _ _ _ _ _ _ _ I1 0 1); [lia|lia|lia|lia|]. clear I1 s1 Four Cb. intros s1 I1. regs_cbn.
      eapply (X_load _ _ _ _ _ _ _ _ _ _ _ _ _ I1 2 1 4 _); [lia|lia|lia|lia|lia|reflexivity|]. clear I1 s1. intros s1 I1. regs_cbn.
      eapply HK'; [reflexivity|exact I1|]. unfold result_in. rewrite Ek. split; [reflexivity|]. unfold ld4. rewrite ld_w32. change 8%nat with (4 + 4)%nat. rewrite ld_split. change (256 ^ Z.of_nat 4) with W32. change (Z.of_nat 4) with 4.
      apply Z.mod_small. pose proof (ld4_range mem p Hb). pose proof (ld4_range mem (p + 4) Hb). unfold ld4 in *. change (256 ^ Z.of_nat (4 + 4)) with (W32 * W32). nia.
  - destruct C as (C1 & C2 & C3 & C4 & C5 & C6). rewrite C1, C3, C5. change (PassType_Float =? PassType_Float) with true. clear Four.
    destruct C6 as [-> | ->].
    + change (Z.of_nat 4 =? 4) with true. cbn [app]. eapply (X_fld _ _ _ _ _ _ _ _ _ _ _ _ _ I1 4 _ 1 0 p); [reflexivity|cbn [asm_ok]; unfold no45; lia|lia|reflexivity|regs_cbn; apply w32_is; [lia|exact Okp]|].
      intros s2 I2. eapply HK'; [reflexivity|exact I2|]. unfold result_in. rewrite Ek. reflexivity.
    + change (Z.of_nat 8 =? 4) with false. change (Z.of_nat 8 =? 8) with true. cbn [app]. eapply (X_fld _ _ _ _ _ _ _ _ _ _ _ _ _ I1 8 _ 1 0 p); [reflexivity|cbn [asm_ok]; unfold no45; lia|lia|reflexivity|regs_cbn; apply w32_is; [lia|exact Okp]|].
      intros s2 I2. eapply HK'; [reflexivity|exact I2|]. unfold result_in. rewrite Ek. reflexivity.
  - destruct C as (C1 & C2 & C3 & C4 & C5 & C6 & C7 & C8 & C9). rewrite C1, C3, C4, C7, C8. clear Four HK'.
    change (PassType_Object =? PassType_Float) with false. change (PassType_Object =? PassType_Basic) with false. rewrite andb_false_r.
    cbn [orb Z.eqb negb app]. rewrite <- !app_assoc. cbn [app]. exact (Cb n eq_refl).
Qed.
Local Notation pops := (Jit32HookSpec.pops gcc vf pks rk).
Lemma epilogue_W s m mem p tr : target_ok -> ending 0 s m mem p ->
  W (DoReturn gcc conv r ++ ret_dtors gcc conv r ++ epilogue gcc conv r ps) s tr (finished gcc vf u pks rk s0 the_vars (at_ret (emit_all PL) pops) p m).
Proof.
  intros Tok Hs. destruct (source_dec p) as [Src|Src].
  2:{ unfold finished, guard. apply (W_stop _ _ _ _ _ _ _ _ _ Broken). right. split; [exact Src|]. split; reflexivity. }
  eapply doreturn_W; [exact Tok|exact Src|exact Hs|]. clear s Hs mem. intros s a c dx b f df mem I Rn Ag K0. nums.
  destruct (keep0_regs mem K0) as (Q1 & Q2 & Q3 & _).
  replace (ret_dtors gcc conv r) with (@nil asm).
  2:{ unfold ret_dtors. destruct Hc as (_ & _ & (_ & [-> |[_ ->]] & _) & _); [reflexivity|]. cbn [Z.eqb negb]. rewrite andb_false_r. reflexivity. }
  unfold epilogue. rewrite retmem. replace (HasVarArgs conv) with vf by (symmetry; apply Hc). rewrite stack_is. cbn [app]. unfold ESP at 1, EBP, EBX at 1, MOD_REG.
  eapply (X_mov_rr _ _ _ _ _ _ _ _ _ _ _ _ _ I 4 5); [lia|lia|]. clear s I. intros s I. regs_cbn.
  eapply (X_pop _ _ _ _ _ _ _ _ _ _ _ _ _ I 3 (B + 4)); [lia|regs_cbn; apply w32_is; unfold W32 in *; lia|]. clear s I. intros s I. regs_cbn. rewrite Q1 in I.
  eapply (X_pop _ _ _ _ _ _ _ _ _ _ _ _ _ I 5 S0); [lia|regs_cbn; apply w32_is; unfold W32 in *; lia|]. clear s I. intros s I. regs_cbn. rewrite Q2 in I.
  assert (Ret : exists ai, (if negb gcc && negb vf then AReturn_Popstack ((if in_mem rk then s16 (T + 4) else T) mod 2 ^ 16) else if gcc && in_mem rk then AReturn_Popstack 4 else AReturn) = ai /\ meaning ai = IRet pops /\ asm_ok ai).
  { eexists. split; [reflexivity|]. unfold Jit32HookSpec.pops, popped, head, on_stack. replace (s16 (T + 4)) with (T + 4) by (unfold s16; rewrite Z.mod_small; lia). clear - Nt.
    destruct gcc, vf, (in_mem rk); cbn [negb andb orb meaning asm_ok]; rewrite ?Z.mod_small by lia; split; try reflexivity; try exact Logic.I; try (f_equal; lia); unfold uint16_ok; lia. }
  destruct Ret as (ai & -> & R1 & R2). apply W_known. intros Sf. apply (W_stop _ _ _ _ _ _ _ _ _ Done).
  pose proof (is_set_pc _ _ _ _ _ (off PL - off [ai]) I) as Ip. assert (Ag2 : agree (delivered p m) (mm (set_pc s (off PL - off [ai])))) by (replace (mm _) with mem by (symmetry; apply Ip); exact Ag).
  assert (Gt : gets gcc vf u rk s0 (set_pc s (off PL - off [ai])) p).
  { unfold gets. unfold result_in in Rn. destruct Ip as (G & F1 & _ & M1 & _). unfold EAX, EDX. rewrite (G 0), (G 2) by lia. rewrite F1, M1. exact Rn. }
  left. split; [exact Src|]. split; [reflexivity|]. split; [reflexivity|]. split; [eapply ret_at; [exact R1|exact R2|exact Sf]|]. split; [exact Ag2|]. split; [exact Gt|].
  destruct Ip as (G & F1 & _ & M1 & _). split; [unfold ESP at 1; rewrite (G 4) by lia; reflexivity|]. split.
  - intros q Hq. unfold nonvolatile in Hq. cbn in Hq. destruct Hq as [<- |[<- |[<- |[<- |[]]]]]; rewrite G by (unfold EBX, EBP, ESI, EDI; lia); reflexivity.
  - rewrite M1, <- Q3. f_equal. lia.
Qed.

(** ** The beginning *)
Ltac nxt I := (let I' := fresh "J" in let s' := fresh "s" in intros s' I'; clear I; rename I' into I); regs_cbn.
Ltac inr := unfold W32 in *; lia.
Lemma frame_W l tr (F : sys) :
  (forall s a mem ctx, at_ease s a (st4 (mm s0) (a_status the_vars) IGNORED) mem ctx -> W l s tr F) ->
  W (prologue gcc conv ++ make_frame gcc conv r ps ++ l) s0 tr F.
Proof.
  intros HK. nums. pose proof (is_self s0 (proj1 He)) as I. destruct He as (_ & Hf & _). rewrite Hf in I.
  pose proof E_is as Eb. pose proof bot_is as Bb.
  unfold prologue, make_frame. replace (HasVarArgs conv) with vf by (symmetry; apply Hc). rewrite <- !app_assoc. cbn [app]. unfold EBP, EBX, ESP at 1 2 3, MOD_REG.
  change (rg s0 4) with S0 in I.
  eapply (X_push _ _ _ _ _ _ _ _ _ _ _ _ _ I 5 (S0 - 4)); [lia|regs_cbn; apply w32_is; inr|]. nxt I.
  eapply (X_push _ _ _ _ _ _ _ _ _ _ _ _ _ I 3 (S0 - 8)); [lia|regs_cbn; apply w32_is; inr|]. nxt I.
  eapply (X_mov_rr _ _ _ _ _ _ _ _ _ _ _ _ _ I 5 4); [lia|lia|]. nxt I.
  set (m2 := st4 (st4 (mm s0) (S0 - 4) (rg s0 5)) (S0 - 8) (rg s0 3)) in *.
  assert (X : forall l', (forall s' c', is s' (R8 (rg s0 0) c' (rg s0 2) (rg s0 3) (B + d) B (rg s0 ESI) (rg s0 EDI)) [] (Mach32.df s0) fm -> W l' s' tr F) -> W ((if gcc || vf then [] else [APush_Reg ECX]) ++ l') s2 tr F).
  { intros l' KK. assert (Dg : gcc || vf = true \/ gcc || vf = false) by (destruct (gcc || vf); auto). destruct Dg as [Dg|Dg].
    - assert (Df : fm = m2) by (unfold Jit32Frame.fm; rewrite Dg; reflexivity). assert (d = 0) by (rewrite Dg; reflexivity).
      replace (if gcc || vf then [] else [APush_Reg ECX]) with (@nil asm) by (rewrite Dg; reflexivity). cbn [app]. eapply KK. rewrite Df. replace (B + d) with (S0 - 8) by lia. exact I.
    - assert (Df : fm = st4 m2 (S0 - 12) (rg s0 ECX)) by (unfold Jit32Frame.fm; rewrite Dg; reflexivity). assert (d = -4) by (rewrite Dg; reflexivity).
      replace (if gcc || vf then [] else [APush_Reg ECX]) with [APush_Reg ECX] by (rewrite Dg; reflexivity). cbn [app]. unfold ECX at 1.
      eapply (X_push _ _ _ _ _ _ _ _ _ _ _ _ _ I 1 (S0 - 12)); [lia|regs_cbn; apply w32_is; inr|]. nxt I. eapply KK. rewrite Df. replace (B + d) with (S0 - 12) by lia. exact I. }
  apply X. clear X I s s1 s2. intros s c I.
  assert (Vs : vars_size gcc conv r ps = B + d - bot) by (unfold vars_size, Jit32Frame.bot; rewrite frame0_is; lia).
  assert (Bb2 : S0 - 4200 - 3 * RS <= bot <= B + d) by (destruct vf; lia).
  eapply (X_sub_esp _ _ _ _ _ _ _ _ _ _ _ _ _ I _ (vars_size gcc conv r ps) bot); [reflexivity|cbn [asm_ok]; unfold rm_ok, int32_ok; lia|regs_cbn; apply w32_is; inr|]. nxt I.
  eapply (X_alui _ _ _ _ _ _ _ _ _ _ _ _ _ I _ OAnd 4 (-16) E); [reflexivity|cbn [asm_ok]; unfold rm_ok, int32_ok; lia|lia|regs_cbn; rewrite and16 by inr; reflexivity|unfold okr; inr|]. nxt I.
  eapply (X_storei _ _ _ _ _ _ _ _ _ _ _ _ _ I 5 MRES_IGNORED _ (B + v_status gcc conv)); [lia|lia|unfold int32_ok, MRES_IGNORED; lia|lia|regs_cbn; apply w32_is; inr|]. change (w32 MRES_IGNORED) with 0. nxt I.
  eapply HK. eexists _, _, _, _. split; [exact I|]. split; [|split; [|reflexivity]].
  - cbn [the_vars Jit32Frame.the_vars a_status]. apply agree_sto. apply (agree_out _ (mm s0)); [|apply agree_refl]. intros x Hx.
    assert (Nx : ~ (B + d <= x < S0)) by (intros Y; apply Hx, own_top; pose proof (total_pos pks); rewrite Nb0; destruct (gcc || vf); lia).
    unfold Jit32Frame.fm. clear - Nx Ns. destruct (gcc || vf); rewrite ?st4_out by inr; reflexivity.
  - apply keep_sto; [intros x _; reflexivity|inr|inr|left; lia].
Qed.

Lemma format_W s a m mem ctx l tr (K : event -> sys) : vf = true -> int32_ok (k_vsn k) -> at_ease s a m mem ctx ->
  (forall e s' a' mem', at_ease s' a' (sto (after e) (a_buf the_vars + 4095) 1 0) mem' ctx -> W l s' (tr ++ [e]) (K e)) ->
  W (varargs gcc conv k r ps ++ l) s tr (call format_sig m (format gcc vf the_iface pks rk s0 the_vars) K).
Proof.
  intros Hv Hk Hs HK. pose proof Hs as (c & dx & b & df & I & Ag & Kp & Cx). nums. pose proof frame_is as (Vb & Va & _). pose proof bot_is as Bb. pose proof E_is as Eb.
  assert (Hv1 : v_va_buf gcc conv r ps = frame1 gcc conv r - 4100) by (rewrite Vb, Hv; reflexivity). assert (Hv2 : v_va_argptr gcc conv r ps = frame1 gcc conv r - 4) by (rewrite Va, Hv; reflexivity).
  assert (Hb : bot = B + frame1 gcc conv r - 4100) by (rewrite Bb, Hv; reflexivity). clear Vb Va Bb.
  assert (Dv : gcc || vf = true) by (rewrite Hv; apply orb_true_r). rewrite Dv in Nb0. assert (D0 : d = 0) by (rewrite Dv; reflexivity).
  unfold varargs. change (align_bytes 16 false false 0) with 0. replace (HasVarArgs conv) with vf by (symmetry; apply Hc). replace (HasVafmt conv) with vf by (symmetry; apply Hc).
  rewrite stack_is. set (o := param_base_offs gcc conv r) in *.
  replace (if vf then [ALea_DispRegImmAuto EAX EBP (o + T + 4); AMov_Rm_Reg_DispAuto EBP EAX (v_va_argptr gcc conv r ps)] else [])
    with [ALea_DispRegImmAuto EAX EBP (o + T + 4); AMov_Rm_Reg_DispAuto EBP EAX (v_va_argptr gcc conv r ps)] by (rewrite Hv; reflexivity).
  match goal with |- context [if vf then AlignBefore 0 ++ ?x else []] => replace (if vf then AlignBefore 0 ++ x else []) with x by (rewrite Hv; reflexivity) end.
  rewrite <- !app_assoc. cbn [app AlignAfter Z.eqb]. unfold EAX, EBP, ECX, EDX, ESP at 1, MOD_REG.
  eapply (X_lea _ _ _ _ _ _ _ _ _ _ _ _ _ I 0 5 _ (B + (o + T + 4))); [lia|lia|lia|unfold int32_ok; lia|regs_cbn; apply w32_is; inr|]. nxt I.
  eapply (X_store _ _ _ _ _ _ _ _ _ _ _ _ _ I 5 0 _ (B + v_va_argptr gcc conv r ps)); [lia|lia|lia|unfold int32_ok; lia|regs_cbn; apply w32_is; inr|]. nxt I.
  set (mem1 := st4 mem (B + v_va_argptr gcc conv r ps) (B + (o + T + 4))) in *.
  assert (Ag1 : agree m mem1) by (unfold mem1, st4; apply agree_own; [inr|inr| |exact Ag]; intros x Hx; apply own_argptr; [exact Hv|lia]).
  assert (Kp1 : keep mem1) by (unfold mem1, st4; apply keep_sto; [exact Kp|inr|inr|left; lia]).
  assert (Cx1 : ld4 mem1 (B + v_pContext gcc conv) = ctx) by (unfold mem1; rewrite ld4_diff by inr; exact Cx).
  eapply (X_push _ _ _ _ _ _ _ _ _ _ _ _ _ I 0 (E - 4)); [lia|regs_cbn; apply w32_is; inr|]. nxt I.
  eapply (X_push_rm _ _ _ _ _ _ _ _ _ _ _ _ _ I 5 (o + T) (E - 8) (B + (o + T))); [lia|lia|unfold int32_ok; lia|regs_cbn; apply w32_is; inr|regs_cbn; apply w32_is; inr|]. nxt I.
  rewrite (ld4_diff mem1 (E - 4)) in I by inr.
  eapply (X_push_imm _ _ _ _ _ _ _ _ _ _ _ _ _ I (STRBUF_LEN - 1) (E - 12)); [unfold int32_ok, STRBUF_LEN; lia|regs_cbn; apply w32_is; inr|]. change (w32 (STRBUF_LEN - 1)) with 4095. nxt I.
  eapply (X_lea _ _ _ _ _ _ _ _ _ _ _ _ _ I 1 5 _ (B + v_va_buf gcc conv r ps)); [lia|lia|lia|unfold int32_ok; lia|regs_cbn; apply w32_is; inr|]. nxt I.
  eapply (X_push _ _ _ _ _ _ _ _ _ _ _ _ _ I 1 (E - 16)); [lia|regs_cbn; apply w32_is; inr|]. nxt I.
  eapply (X_movi _ _ _ _ _ _ _ _ _ _ _ _ _ I 0); [lia|exact Hk|]. nxt I.
  assert (Okl : okr (ld4 mem1 (B + (o + T)))). { apply ld4_range. unfold mem1, st4. apply sto_bytes. destruct Hs as (? & ? & ? & ? & Is & _). exact (is_bytes _ _ _ _ _ Is). }
  set (mem2 := st4 (st4 (st4 (st4 mem1 (E - 4) _) _ _) _ _) _ _) in *.
  assert (O2 : forall x, ~ (E - 16 <= x < E) -> mem2 x = mem1 x) by (intros x Hx; unfold mem2; rewrite !st4_out by inr; reflexivity).
  assert (Bl2 : below mem1 mem2) by (apply (below_by _ _ _ _ O2); lia).
  assert (A0 : ld4 mem2 (E - 16) = B + v_va_buf gcc conv r ps) by (unfold mem2; apply ld4_same; [lia|inr|unfold okr; inr]).
  assert (A1 : ld4 mem2 (E - 12) = 4095) by (unfold mem2; rewrite ld4_diff by inr; apply ld4_same; [lia|inr|unfold okr; inr]).
  assert (A2 : ld4 mem2 (E - 8) = ld4 mem1 (B + (o + T))) by (unfold mem2; rewrite !(ld4_diff _ _ _ (E - 8)) by inr; apply ld4_same; [lia|inr|exact Okl]).
  assert (A3 : ld4 mem2 (E - 4) = B + (o + T + 4)) by (unfold mem2; rewrite !(ld4_diff _ _ _ (E - 4)) by inr; apply ld4_same; [lia|inr|unfold okr; inr]).
  clear Hs. clearbody mem2.
  eapply (call_W format_sig m _ _ 0 _ _ tr _ _ _ mem1 I); cbn [c_args c_align c_pop c_float format_sig]; regs_cbn; try lia.
  - clear - Nem. modlia.
  - exact Ag1.
  - apply (below_agree _ _ _ Bl2). apply agree_refl.
  - intros e v Te Ie. regs_cbn. cbn [the_vars Jit32Frame.the_vars a_buf Jit32Frame.the_iface c_vsn].
    assert (AA : forall j y, E - 16 + 4 * Z.of_nat j = y -> E - 16 <= y -> y + 4 <= E -> arg (e_in e) j = ld4 mem2 y).
    { intros j y Hy Hy1 Hy2. rewrite (arg_at (e_in e) _ _ _ j y Ie) by (regs_cbn; inr). apply ld4_diff; inr. }
    split; [exact Te|]. rewrite (AA 0%nat (E - 16)), (AA 1%nat (E - 12)), (AA 2%nat (E - 8)), (AA 3%nat (E - 4)) by lia. rewrite A0, A1, A2, A3. cbn [the_vars Jit32Frame.the_vars a_buf].
    split; [reflexivity|]. split; [reflexivity|]. split; [f_equal; lia|lia].
  - intros e a1 c5 dx1 f1 df1 m1 I2 Ea Eb2 Ed Ef El So. regs_cbn. cbn [format_sig c_pop] in I2.
    replace f1 with (@nil Z) in I2 by (destruct f1; [reflexivity|discriminate El]).
    eapply (X_add_esp _ _ _ _ _ _ _ _ _ _ _ _ _ I2 _ 16 E); [reflexivity|cbn [asm_ok]; unfold rm_ok, int32_ok; lia|regs_cbn; apply w32_is; inr|]. nxt I2.
    eapply (X_zero _ _ _ _ _ _ _ _ _ _ _ _ _ I2 2); [lia|]. nxt I2.
    eapply (X_storeb _ _ _ _ _ _ _ _ _ _ _ _ _ I2 5 2 _ (B + v_va_buf gcc conv r ps + 4095)); [lia|lia|lia|unfold int32_ok, STRBUF_LEN; lia|regs_cbn; unfold STRBUF_LEN; apply w32_is; inr|]. nxt I2. change (0 mod 256) with 0 in I2.
    assert (S1 : same_own mem1 m1) by (intros x Ox Hx; rewrite So by assumption; apply Bl2; lia).
    eapply HK. eexists _, _, _, _. split; [exact I2|]. split; [|split].
    + cbn [the_vars Jit32Frame.the_vars a_buf]. apply agree_sto. rewrite Ea. apply agree_refl.
    + apply keep_sto; [exact (keep_top mem1 m1 Kp1 S1)|inr|inr|left; lia].
    + unfold ld4. rewrite ld_sto_diff by inr. exact (ctx_same mem1 m1 ctx S1 Cx1).
Qed.
Local Notation begin := (Jit32HookSpec.begin gcc vf the_iface pks rk s0 the_vars E).
Lemma begin_W l (K : (Z -> Z) -> sys) : int32_ok (k_vsn k) ->
  (forall tr s a m mem ctx, at_ease s a m mem ctx -> W l s tr (K m)) ->
  W (prologue gcc conv ++ make_frame gcc conv r ps ++ varargs gcc conv k r ps ++ ret_ctors gcc conv r ++ l) s0 [] (begin (mm s0) K).
Proof.
  intros Hk HK. unfold Jit32HookSpec.begin. eapply frame_W. intros s a mem ctx Hs.
  replace (ret_ctors gcc conv r) with (@nil asm).
  2:{ unfold ret_ctors. destruct Hc as (_ & _ & (_ & [-> |[-> _]] & _) & _); [reflexivity|]. cbn [Z.eqb negb]. rewrite andb_false_r. reflexivity. }
  cbn [app]. cbv zeta. assert (Dv : vf = true \/ vf = false) by (destruct vf; auto). destruct Dv as [Dv|Dv].
  - match goal with |- context [if vf then ?x else ?y] => replace (if vf then x else y) with x by (rewrite Dv; reflexivity) end.
    eapply format_W; [exact Dv|exact Hk|exact Hs|]. intros e s' a' mem' Hs'. eapply HK. exact Hs'.
  - match goal with |- context [if vf then ?x else ?y] => replace (if vf then x else y) with y by (rewrite Dv; reflexivity) end.
    unfold varargs. replace (HasVarArgs conv) with false by (symmetry; rewrite <- Dv; apply Hc). replace (HasVafmt conv) with false by (symmetry; rewrite <- Dv; apply Hc).
    cbn [app]. eapply HK. exact Hs.
Qed.

Lemma rets_W s a c dx b df mem l tr (F : sys) : is s (R8 a c dx b E B (rg s0 ESI) (rg s0 EDI)) [] df mem ->
  (forall s' a' dx' mem', is s' (R8 a' c dx' b (E - 8) B (rg s0 ESI) (rg s0 EDI)) [] df mem' -> (forall x, ~ (E - 8 <= x < E) -> mem' x = mem x) ->
     match rk with
     | RVoid => ld4 mem' (E - 8) = 0 /\ ld4 mem' (E - 4) = 0
     | _ => ld4 mem' (E - 8) = a_oret the_vars /\ ld4 mem' (E - 4) = a_over the_vars
     end -> W l s' tr F) ->
  W ((if pi_size r =? 0 then [APush_Imm8 0; APush_Imm8 0]
      else [ALea_DispRegImmAuto EAX EBP (v_override_ret gcc conv r); ALea_DispRegImmAuto EDX EBP (v_orig_ret gcc conv r); APush_Reg EAX; APush_Reg EDX]) ++ l) s tr F.
Proof.
  intros I HK. nums. pose proof ret_size as Rs. pose proof oret_range as Or. pose proof over_range as Ov. destruct void_dec as [Dr|Dr].
  - rewrite Dr in Rs. destruct Rs as [-> _]. cbn [Z.eqb app].
    eapply (X_push_imm8 _ _ _ _ _ _ _ _ _ _ _ _ _ I 0 (E - 4)); [unfold int8_ok; lia|regs_cbn; apply w32_is; inr|]. nxt I.
    eapply (X_push_imm8 _ _ _ _ _ _ _ _ _ _ _ _ _ I 0 (E - 8)); [unfold int8_ok; lia|regs_cbn; apply w32_is; inr|]. nxt I. change (w32 0) with 0 in I.
    eapply HK; [exact I|intros x Hx; rewrite !st4_out by inr; reflexivity|]. rewrite Dr. split; [apply ld4_same; [lia|inr|unfold okr; inr]|rewrite ld4_diff by inr; apply ld4_same; [lia|inr|unfold okr; inr]].
  - destruct (ret_vars Dr) as (_ & V1 & V2 & _). assert (R0 : (pi_size r =? 0) = false) by (apply Z.eqb_neq; destruct rk; [contradiction|tauto ..]). rewrite R0. cbn [app].
    unfold EAX, EBP, EDX.
    eapply (X_lea _ _ _ _ _ _ _ _ _ _ _ _ _ I 0 5 _ (B + v_override_ret gcc conv r)); [lia|lia|lia|unfold int32_ok; lia|regs_cbn; apply w32_is; inr|]. nxt I.
    eapply (X_lea _ _ _ _ _ _ _ _ _ _ _ _ _ I 2 5 _ (B + v_orig_ret gcc conv r)); [lia|lia|lia|unfold int32_ok; lia|regs_cbn; apply w32_is; inr|]. nxt I.
    eapply (X_push _ _ _ _ _ _ _ _ _ _ _ _ _ I 0 (E - 4)); [lia|regs_cbn; apply w32_is; inr|]. nxt I.
    eapply (X_push _ _ _ _ _ _ _ _ _ _ _ _ _ I 2 (E - 8)); [lia|regs_cbn; apply w32_is; inr|]. nxt I.
    eapply HK; [exact I|intros x Hx; rewrite !st4_out by inr; reflexivity|]. cbn [the_vars Jit32Frame.the_vars a_oret a_over].
    assert (Y : ld4 (st4 (st4 mem (E - 4) (B + v_override_ret gcc conv r)) (E - 8) (B + v_orig_ret gcc conv r)) (E - 8) = B + v_orig_ret gcc conv r /\
      ld4 (st4 (st4 mem (E - 4) (B + v_override_ret gcc conv r)) (E - 8) (B + v_orig_ret gcc conv r)) (E - 4) = B + v_override_ret gcc conv r).
    { split; [apply ld4_same; [lia|inr|unfold okr; inr]|rewrite ld4_diff by inr; apply ld4_same; [lia|inr|unfold okr; inr]]. }
    destruct rk; [contradiction|exact Y ..].
Qed.
Definition phi_ok : Prop := w32 (k_phi k) + 4 <= W32 /\ forall x, w32 (k_phi k) <= x < w32 (k_phi k) + 4 -> ~ own x.
Lemma setup_W s a m mem ctx0 l tr (K : event -> sys) :
  consts_ok k -> -128 <= k_offs k -> 0 <= k_idx k < 2 ^ 28 -> phi_ok -> at_ease s a m mem ctx0 ->
  (forall e s' a' mem', at_ease s' a' (after e) mem' (eax e) -> W l s' (tr ++ [e]) (K e)) ->
  W (CallSetupHookLoop gcc conv k r ++ l) s tr (call (setup_sig gcc) m (setup gcc vf the_iface rk s0 the_vars) K).
Proof.
  intros (Hk1 & Hk2 & Hk3 & _ & Hk4 & _) Ho Hi (Hp1 & Hp2) Hs HK. pose proof Hs as (c & dx & b & df & I & Ag & Kp & _). nums.
  destruct (keep_regs mem Kp) as (_ & _ & _ & Th).
  assert (Rt0 : 12 <= v_this gcc conv r <= 16 \/ v_this gcc conv r = -4) by (rewrite Nth; clear; destruct gcc, vf, (in_mem rk); cbn; lia).
  unfold CallSetupHookLoop. rewrite <- !app_assoc. eapply rets_W; [exact I|]. clear s I Hs dx a. intros s a dx mem1 I O1 V1.
  assert (Bl1 : below mem mem1) by (apply (below_by _ _ _ _ O1); lia).
  cbn [app]. unfold EBP at 1 2 3 4 5 6, EAX at 1 2 3 4 5 6, EDX at 1 2 3 4, ECX at 1.
  eapply (X_lea8 _ _ _ _ _ _ _ _ _ _ _ _ _ I 0 5 _ (B + v_cur_res gcc conv)); [lia|lia|lia|lia|regs_cbn; apply w32_is; inr|]. nxt I.
  eapply (X_lea8 _ _ _ _ _ _ _ _ _ _ _ _ _ I 2 5 _ (B + v_prev_res gcc conv)); [lia|lia|lia|lia|regs_cbn; apply w32_is; inr|]. nxt I.
  eapply (X_push _ _ _ _ _ _ _ _ _ _ _ _ _ I 0 (E - 12)); [lia|regs_cbn; apply w32_is; inr|]. nxt I.
  eapply (X_push _ _ _ _ _ _ _ _ _ _ _ _ _ I 2 (E - 16)); [lia|regs_cbn; apply w32_is; inr|]. nxt I.
  eapply (X_lea8 _ _ _ _ _ _ _ _ _ _ _ _ _ I 0 5 _ (B + v_status gcc conv)); [lia|lia|lia|lia|regs_cbn; apply w32_is; inr|]. nxt I.
  eapply (X_lea8 _ _ _ _ _ _ _ _ _ _ _ _ _ I 2 5 _ (B + v_vfnptr_origentry gcc conv)); [lia|lia|lia|lia|regs_cbn; apply w32_is; inr|]. nxt I.
  unfold EAX, EDX, ECX.
  eapply (X_push _ _ _ _ _ _ _ _ _ _ _ _ _ I 0 (E - 20)); [lia|regs_cbn; apply w32_is; inr|]. nxt I.
  eapply (X_push _ _ _ _ _ _ _ _ _ _ _ _ _ I 2 (E - 24)); [lia|regs_cbn; apply w32_is; inr|]. nxt I.
  set (mem2 := st4 (st4 (st4 (st4 mem1 _ _) _ _) _ _) _ _) in *.
  assert (O2 : forall x, ~ (E - 24 <= x < E) -> mem2 x = mem x) by (intros x Hx; unfold mem2; rewrite !st4_out by inr; apply O1; lia).
  assert (V2 : ld4 mem2 (E - 24) = a_orig the_vars /\ ld4 mem2 (E - 20) = a_status the_vars /\ ld4 mem2 (E - 16) = a_prev the_vars /\ ld4 mem2 (E - 12) = a_cur the_vars /\
    ld4 mem2 (E - 8) = ld4 mem1 (E - 8) /\ ld4 mem2 (E - 4) = ld4 mem1 (E - 4)).
  { unfold mem2. cbn [the_vars Jit32Frame.the_vars a_orig a_status a_prev a_cur]. repeat split; rewrite ?(ld4_diff _ _ _ (E - 24)), ?(ld4_diff _ _ _ (E - 20)), ?(ld4_diff _ _ _ (E - 16)), ?(ld4_diff _ _ _ (E - 12)), ?(ld4_diff _ _ _ (E - 8)), ?(ld4_diff _ _ _ (E - 4)) by inr;
      first [reflexivity|apply ld4_same; [lia|inr|unfold okr; inr]]. }
  assert (Th2 : ld4 mem2 (B + v_this gcc conv r) = this0 gcc vf rk s0) by (rewrite <- Th; apply ld4_ext; [inr|inr|]; intros x Hx; apply O2; lia).
  clearbody mem2. unfold EBP.
  eapply (X_load _ _ _ _ _ _ _ _ _ _ _ _ _ I 0 5 _ (B + v_this gcc conv r)); [lia|lia|lia|lia|lia|regs_cbn; apply w32_is; inr|]. rewrite Th2. nxt I.
  pose proof (is_ok _ _ _ _ _ I) as (Okt & _). regs_cbn.
  eapply (X_push _ _ _ _ _ _ _ _ _ _ _ _ _ I 0 (E - 28)); [lia|regs_cbn; apply w32_is; inr|]. nxt I.
  set (mem3 := st4 mem2 (E - 28) (this0 gcc vf rk s0)) in *.
  assert (O3 : forall x, ~ (E - 28 <= x < E) -> mem3 x = mem x) by (intros x Hx; unfold mem3; rewrite !st4_out by inr; apply O2; lia).
  assert (V3 : ld4 mem3 (E - 28) = this0 gcc vf rk s0) by (apply ld4_same; [lia|inr|exact Okt]).
  assert (W3 : forall y, E - 24 <= y -> y + 4 <= E -> ld4 mem3 y = ld4 mem2 y) by (intros y Y1 Y2; unfold mem3; apply ld4_diff; inr).
  assert (Th3 : ld4 mem3 (B + v_this gcc conv r) = this0 gcc vf rk s0) by (rewrite <- Th; apply ld4_ext; [inr|inr|]; intros x Hx; apply O3; lia).
  clearbody mem3.
  eapply (X_load _ _ _ _ _ _ _ _ _ _ _ _ _ I 1 5 _ (B + v_this gcc conv r)); [lia|lia|lia|lia|lia|regs_cbn; apply w32_is; inr|]. rewrite Th3. nxt I.
  eapply (X_load _ _ _ _ _ _ _ _ _ _ _ _ _ I 0 1 (k_offs k) _); [lia|lia|lia|unfold int32_ok in *; lia|lia|reflexivity|]. nxt I.
  set (vt := ld4 mem3 (w32 (this0 gcc vf rk s0 + k_offs k))) in *.
  eapply (X_alui _ _ _ _ _ _ _ _ _ _ _ _ _ I _ OAdd 0 (k_idx k * 4) (w32 (vt + 4 * k_idx k))); [reflexivity|cbn [asm_ok]; unfold rm_ok, int32_ok; unfold MOD_REG; lia|lia|regs_cbn; rewrite w32_idem_r; f_equal; lia|apply w32_ok|]. nxt I.
  eapply (X_push _ _ _ _ _ _ _ _ _ _ _ _ _ I 0 (E - 32)); [lia|regs_cbn; apply w32_is; inr|]. nxt I.
  set (mem4 := st4 mem3 (E - 32) (w32 (vt + 4 * k_idx k))) in *.
  eapply (X_movi2 _ _ _ _ _ _ _ _ _ _ _ _ _ I 2); [lia|exact Hk1|]. nxt I.
  eapply (X_mov_rm _ _ _ _ _ _ _ _ _ _ _ _ _ I 0 2); [lia|lia|lia|lia|]. nxt I.
  assert (Ph : ld4 mem4 (w32 (k_phi k)) = ld4 mem3 (w32 (k_phi k))).
  { pose proof (w32_range (k_phi k)). apply ld4_ext; [lia|lia|]. intros x Hx. unfold mem4. apply st4_out; [lia|inr|]. intros Y. apply (Hp2 x Hx). apply own_stack. lia. }
  rewrite Ph in I. pose proof (is_ok _ _ _ _ _ I) as (Okp & _). regs_cbn.
  eapply (X_push _ _ _ _ _ _ _ _ _ _ _ _ _ I 0 (E - 36)); [lia|regs_cbn; apply w32_is; inr|]. nxt I.
  set (mem5 := st4 mem4 (E - 36) (ld4 mem3 (w32 (k_phi k)))) in *.
  assert (O5 : forall x, ~ (E - 36 <= x < E - 28) -> mem5 x = mem3 x) by (intros x Hx; unfold mem5, mem4; rewrite !st4_out by inr; reflexivity).
  assert (V5 : ld4 mem5 (E - 36) = ld4 mem3 (w32 (k_phi k)) /\ ld4 mem5 (E - 32) = w32 (vt + 4 * k_idx k)).
  { unfold mem5, mem4. split; [apply ld4_same; [lia|inr|exact Okp]|rewrite ld4_diff by inr; apply ld4_same; [lia|inr|apply w32_ok]]. }
  clearbody mem5. clear mem4 Ph.
  set (wt := if gcc then 4 else 0). assert (Rt : 0 <= wt <= 4) by (unfold wt; destruct gcc; lia).
  set (Q := call (setup_sig gcc) m (setup gcc vf the_iface rk s0 the_vars) K).
  match type of I with is ?sx (R8 ?ax ?cx ?dxx _ _ _ _ _) _ _ _ =>
  assert (X : forall l', (forall s' c' mem6, is s' (R8 ax c' dxx b (E - 36 - wt) B (rg s0 ESI) (rg s0 EDI)) [] df mem6 -> (forall x, ~ (E - 40 <= x < E - 36) -> mem6 x = mem5 x) ->
     (gcc = true -> ld4 mem6 (E - 40) = w32 (k_sh k)) -> (gcc = false -> c' = w32 (k_sh k)) -> W l' s' tr Q) ->
     W ((if gcc then APush_Imm32 (k_sh k) else AMov_Reg_Imm32 1 (k_sh k)) :: l') sx tr Q)
  end.
  { intros l' KK. assert (Dg : gcc = true \/ gcc = false) by (destruct gcc; auto). destruct Dg as [Dg|Dg].
    - replace (if gcc then APush_Imm32 (k_sh k) else AMov_Reg_Imm32 1 (k_sh k)) with (APush_Imm32 (k_sh k)) by (rewrite Dg; reflexivity).
      assert (wt = 4) by (unfold wt; rewrite Dg; reflexivity).
      eapply (X_push_imm _ _ _ _ _ _ _ _ _ _ _ _ _ I _ (E - 40)); [exact Hk2|regs_cbn; apply w32_is; inr|]. nxt I.
      replace (E - 40) with (E - 36 - wt) in I at 1 by lia. eapply KK; [exact I| | |].
      + intros x Hx. apply st4_out; inr.
      + intros _. apply ld4_same; [lia|inr|apply w32_ok].
      + intros Y. congruence.
    - replace (if gcc then APush_Imm32 (k_sh k) else AMov_Reg_Imm32 1 (k_sh k)) with (AMov_Reg_Imm32 1 (k_sh k)) by (rewrite Dg; reflexivity).
      assert (wt = 0) by (unfold wt; rewrite Dg; reflexivity).
      eapply (X_movi _ _ _ _ _ _ _ _ _ _ _ _ _ I 1); [lia|exact Hk2|]. nxt I.
      replace (E - 36) with (E - 36 - wt) in I at 1 by lia. eapply KK; [exact I| | |].
      + intros x Hx. reflexivity.
      + intros Y. congruence.
      + intros _. reflexivity. }
  apply X. clear X I. intros sa1 ca1 mem6 I O6 T1 T2.
  eapply (X_movi _ _ _ _ _ _ _ _ _ _ _ _ _ I 0); [lia|exact Hk3|]. nxt I.
  assert (O7 : forall x, ~ (E - 40 <= x < E) -> mem6 x = mem x) by (intros x Hx; rewrite O6, O5 by lia; apply O3; lia).
  assert (Bl6 : below mem mem6) by (apply (below_by _ _ _ _ O7); lia).
  assert (Bl3 : below mem mem3) by (apply (below_by _ _ _ _ O3); lia).
  assert (Bl36 : below mem3 mem6) by (apply (below_by (E - 40) (E - 28)); [intros x Hx; rewrite O6, O5 by lia; reflexivity|lia|lia]).
  assert (Ka : c_args (setup_sig gcc) = 36 + wt) by (unfold wt; destruct gcc; reflexivity).
  unfold Q. eapply (call_W (setup_sig gcc) m _ _ 0 _ _ tr _ _ _ mem3 I); rewrite ?Ka; regs_cbn; try lia.
  - cbn [c_align Jit32HookSpec.setup_sig]. clear - Nem Rt. assert (wt mod 4 = 0) by (unfold wt; destruct gcc; reflexivity). modlia.
  - exact (below_agree _ _ _ Bl3 Ag).
  - exact (below_agree _ _ _ Bl36 (agree_refl mem3)).
  - intros e v Te Ie. regs_cbn.
    assert (AA : forall j y, E - 36 + 4 * Z.of_nat j = y -> E - 36 <= y -> y + 4 <= E -> marg gcc (e_in e) j = ld4 mem6 y).
    { intros j y Y1 Y2 Y3. unfold marg. rewrite (arg_at (e_in e) _ _ _ _ y Ie); [apply ld4_diff; inr| |inr]. regs_cbn. unfold wt. destruct gcc; lia. }
    assert (M6 : forall y, E - 36 <= y -> y + 4 <= E -> ld4 mem6 y = ld4 mem5 y) by (intros y Y1 Y2; apply ld4_ext; [lia|inr|]; intros x Hx; apply O6; lia).
    assert (M5 : forall y, E - 28 <= y -> y + 4 <= E -> ld4 mem5 y = ld4 mem3 y) by (intros y Y1 Y2; apply ld4_ext; [lia|inr|]; intros x Hx; apply O5; lia).
    destruct V2 as (P1 & P2 & P3 & P4 & P5 & P6). destruct V5 as (P7 & P8).
    unfold setup. cbv zeta. cbn [Jit32Frame.the_iface c_setup c_sh c_phi c_offs c_idx]. split; [exact Te|]. split; [|split; [|split; [|split; [|split; [|split; [|split; [|split]]]]]]].
    + eapply (this_at gcc e (E - 36 - wt) v); [exact Ie|reflexivity|lia|inr| |intros Y; apply T2; exact Y].
      intros Y. assert (wt = 4) by (unfold wt; rewrite Y; reflexivity). replace (E - 36 - wt) with (E - 40) by lia. apply T1. exact Y.
    + rewrite (AA 0%nat (E - 36)), M6 by lia. exact P7.
    + rewrite (AA 1%nat (E - 32)), M6 by lia. exact P8.
    + rewrite (AA 2%nat (E - 28)), M6, M5 by lia. exact V3.
    + rewrite (AA 3%nat (E - 24)), M6, M5, W3 by lia. exact P1.
    + rewrite (AA 4%nat (E - 20)), M6, M5, W3 by lia. exact P2.
    + rewrite (AA 5%nat (E - 16)), M6, M5, W3 by lia. exact P3.
    + rewrite (AA 6%nat (E - 12)), M6, M5, W3 by lia. exact P4.
    + rewrite (AA 7%nat (E - 8)), (AA 8%nat (E - 4)), !M6, !M5, !W3, P5, P6 by lia. exact V1.
  - intros e a1 c5 dx1 f1 df1 m1 I2 Ea Eb Ed Ef El So. regs_cbn.
    cbn [c_float Jit32HookSpec.setup_sig] in El. replace f1 with (@nil Z) in I2 by (destruct f1; [reflexivity|discriminate El]).
    assert (S1 : same_own mem m1) by (intros x Ox Hx; rewrite So by assumption; apply Bl6; lia).
    assert (Fin : forall sz, is sz (R8 a1 c5 dx1 b E B (rg s0 ESI) (rg s0 EDI)) [] df1 m1 -> W (AMov_Rm_Reg_Disp8 5 0 (v_pContext gcc conv) :: l) sz (tr ++ [e]) (K e)).
    { intros sz I3. eapply (X_store8 _ _ _ _ _ _ _ _ _ _ _ _ _ I3 5 0 _ (B + v_pContext gcc conv)); [lia|lia|lia|lia|regs_cbn; apply w32_is; inr|]. nxt I3.
      pose proof (is_ok _ _ _ _ _ I3) as (Oka & _). regs_cbn.
      eapply HK. eexists _, _, _, _. split; [exact I3|]. split; [|split].
      - rewrite Ea. unfold st4. apply agree_own; [inr|inr| |apply agree_refl]. intros x Hx. apply own_word_ctx. lia.
      - apply keep_sto; [exact (keep_top mem m1 Kp S1)|inr|inr|left; lia].
      - rewrite Eb. apply ld4_same; [inr|inr|exact Oka]. }
    assert (Dg : gcc = true \/ gcc = false) by (destruct gcc; auto). destruct Dg as [Dg|Dg].
    + replace (if gcc then [AAdd_Rm_Imm8 ESP 40 MOD_REG] else []) with [AAdd_Rm_Imm8 ESP 40 MOD_REG] by (rewrite Dg; reflexivity). cbn [app].
      assert (wt = 4) by (unfold wt; rewrite Dg; reflexivity).
      assert (Hp0 : c_pop (setup_sig gcc) = 0) by (cbn [c_pop Jit32HookSpec.setup_sig]; rewrite Dg; reflexivity). rewrite Hp0 in I2.
      unfold ESP at 1, MOD_REG. eapply (X_add_esp _ _ _ _ _ _ _ _ _ _ _ _ _ I2 _ 40 E); [reflexivity|cbn [asm_ok]; unfold rm_ok, int8_ok; lia|regs_cbn; apply w32_is; inr|].
      regs_cbn. exact Fin.
    + replace (if gcc then [AAdd_Rm_Imm8 ESP 40 MOD_REG] else []) with (@nil asm) by (rewrite Dg; reflexivity). cbn [app].
      assert (wt = 0) by (unfold wt; rewrite Dg; reflexivity).
      assert (Hp0 : c_pop (setup_sig gcc) = 36) by (cbn [c_pop Jit32HookSpec.setup_sig]; rewrite Dg; reflexivity). rewrite Hp0 in I2.
      apply Fin. replace (E - 36 - wt + 36) with E in I2 by lia. exact I2.
Qed.

(** ** The function *)
Local Notation protocol := (Jit32HookSpec.protocol gcc vf u the_iface pks rk s0 the_vars E (at_ret (emit_all PL) pops)).
Lemma hook_W L : target_ok -> consts_ok k -> -128 <= k_offs k -> 0 <= k_idx k < 2 ^ 28 -> phi_ok -> W (hook_list gcc conv k r ps) s0 [] (protocol L).
Proof.
  intros Tok Hk Ho Hi Hp. unfold hook_list, Jit32HookSpec.protocol. eapply begin_W; [apply Hk|]. intros tr1 q1 a1 m1 mem1 ctx0 H1.
  eapply setup_W; [exact Hk|exact Ho|exact Hi|exact Hp|exact H1|]. clear q1 a1 m1 mem1 ctx0 H1. intros e q2 a2 mem2 H2. cbv zeta.
  eapply hooks_W; [exact H2|]. clear q2 a2 mem2 H2. intros tr3 q3 a3 m3 mem3 H3.
  eapply orig_W; [apply Hk|exact H3|]. clear q3 a3 m3 mem3 H3. intros tr4 q4 a4 m4 mem4 H4.
  eapply hooks_W; [exact H4|]. clear q4 a4 m4 mem4 H4. intros tr5 q5 a5 m5 mem5 H5.
  eapply prep_W; [exact H5|]. clear q5 a5 m5 mem5 H5. intros p tr6 q6 a6 m6 mem6 H6 H7.
  eapply end_W; [apply Hk|apply Hk|exact H6|exact H7|]. clear q6 a6 m6 mem6 H6 H7. intros f q7 a7 mem7 H8 H9.
  eapply destroy_W; [exact H8|exact H9|]. clear q7 a7 mem7 H8 H9. intros tr8 q8 m8 mem8 H10.
  eapply epilogue_W; [exact Tok|exact H10].
Qed.
Lemma low_vars : Forall (fun a => E <= fst a) (areas vf rk the_vars).
Proof.
  nums. pose proof oret_range as Or. pose proof over_range as Ov. destruct frame_is as (Fb & _ & Ff). destruct vars_are as (V1 & V2 & V3 & V4 & _).
  assert (Eb : E <= bot) by (pose proof E_is; lia).
  assert (Bf : bot = B + frame5 gcc conv r ps) by reflexivity.
  unfold areas. cbn [the_vars Jit32Frame.the_vars a_orig a_status a_prev a_cur a_oret a_over a_buf].
  repeat (apply Forall_app; split).
  - repeat constructor; cbn [fst]; lia.
  - destruct void_dec as [Dr|Dr]; [rewrite Dr; constructor|]. destruct (ret_vars Dr) as (_ & W1 & W2 & _ & W3).
    assert (Y : Forall (fun a : Z * Z => E <= fst a) [(B + v_orig_ret gcc conv r, N); (B + v_override_ret gcc conv r, N)]) by (repeat constructor; cbn [fst]; lia).
    destruct rk; [constructor|exact Y ..].
  - assert (Dv : vf = true \/ vf = false) by (destruct vf; auto). destruct Dv as [Dv|Dv].
    + replace (if vf then [(B + v_va_buf gcc conv r ps, buf_len)] else []) with [(B + v_va_buf gcc conv r ps, buf_len)] by (rewrite Dv; reflexivity).
      replace (if vf then frame1 gcc conv r - 4100 else 0) with (frame1 gcc conv r - 4100) in Fb by (rewrite Dv; reflexivity).
      replace (if vf then 4100 else 0) with 4100 in Ff by (rewrite Dv; reflexivity).
      repeat constructor; cbn [fst]; lia.
    + replace (if vf then [(B + v_va_buf gcc conv r ps, buf_len)] else []) with (@nil (Z * Z)) by (rewrite Dv; reflexivity). constructor.
Qed.
Lemma low_plug : in_mem rk = true -> E <= fst plug.
Proof.
  intros Im. nums. destruct frame_is as (Fb & _ & Ff). assert (Dr : rk <> RVoid) by (intros Y; rewrite Y in Im; discriminate Im). destruct (ret_vars Dr) as (_ & W1 & W2 & W3 & W4).
  assert (Eb : E <= bot) by (pose proof E_is; lia). assert (Bf : bot = B + frame5 gcc conv r ps) by reflexivity.
  cbn [fst Jit32HookSpec.plug the_vars Jit32Frame.the_vars a_plug]. destruct vf; lia.
Qed.
Lemma low_depth : S0 - Jit32HookSpec.depth pks rk <= E.
Proof. nums. rewrite depth_is. pose proof E_range as [? _]. lia. Qed.
End Blocks.
