(** The pieces of the hook function that make calls on the hook context. *)
From Coq Require Import List ZArith Bool Lia.
From Verif Require Import TrampModel ProtoModel GenModel Asm64Model Asm64Spec Asm64Proofs Mach64 Mach64Proofs Mach64Mem Jit64Model Jit64Spec Jit64Base Jit64PubProofs Jit64HookSpec Jit64HookList Jit64Run Jit64Frame Jit64Steps.
Import ListNotations.
Local Open Scope Z_scope.
Notation length := List.length.

(** parameters and return types the theorem is about *)
Definition pk_of (p : passinfo) : pkind := PKind (is_float p) (if needs_dtor p then Some (pi_dtor p) else None).
Definition param_ok (p : passinfo) : Prop := uint64_ok (pi_dtor p).
Definition by_ref (r : passinfo) : bool := has (pi_flags r) PassFlag_ByRef.
Definition no_objects (r : passinfo) : Prop := has (pi_flags r) PassFlag_ByVal = false \/ (pi_normal r = 0 /\ pi_dtor r = 0).
Definition ret_class (r : passinfo) (rk : rkind) : Prop :=
  no_objects r /\ uint64_ok (pi_size r) /\
  match rk with
  | RVoid => ret_mem r = false /\ pi_size r = 0
  | RInt n => ret_mem r = false /\ pi_size r <> 0 /\ ((by_ref r = true /\ n = 8%nat) \/
      (by_ref r = false /\ pi_type r = PassType_Basic /\ pi_assign r = 0 /\ pi_size r = Z.of_nat n /\ (1 <= n <= 8)%nat))
  | RFloat n => ret_mem r = false /\ by_ref r = false /\ pi_type r = PassType_Float /\ pi_assign r = 0 /\ pi_size r = Z.of_nat n /\ (1 <= n <= 8)%nat
  | RMem n => ret_mem r = true /\ by_ref r = false /\ pi_type r = PassType_Object /\ MemRetWithTempObj r = false /\ has (pi_flags r) PassFlag_RetReg = false /\
      pi_assign r = 0 /\ pi_copy r = 0 /\ pi_size r = Z.of_nat n /\ 1 <= Z.of_nat n <= 2 ^ 16
  end.
Definition iface_of (k : consts) : iface :=
  Iface (k_sh k) (k_setup k) (k_end k) (k_phi k) (k_offs k) (k_idx k) (i_next k) (i_over k) (i_orig k) (i_should k) (i_call k).
Definition fs_of (rk : rkind) : Z := match rk with RVoid => 64 | _ => 80 + 4 * area rk end.

Lemma align_area n : 1 <= n -> AlignSize (AlignSize n 8) 16 = (n + 15) / 16 * 16.
Proof.
  intros H. assert (L8 : forall x, Z.ldiff x (8 - 1) = 8 * (x / 8)).
  { intros x. change (8 - 1) with (Z.ones 3). rewrite Z.ldiff_ones_r by lia. rewrite Z.shiftl_mul_pow2, Z.shiftr_div_pow2 by lia. change (2 ^ 3) with 8. lia. }
  assert (L16 : forall x, Z.ldiff x (16 - 1) = 16 * (x / 16)).
  { intros x. change (16 - 1) with (Z.ones 4). rewrite Z.ldiff_ones_r by lia. rewrite Z.shiftl_mul_pow2, Z.shiftr_div_pow2 by lia. change (2 ^ 4) with 16. lia. }
  unfold AlignSize. rewrite L8. destruct (Z.eqb_spec (n mod 8) 0) as [E|E]; cbn [negb].
  - rewrite L16. destruct (Z.eqb_spec (n mod 16) 0); cbn [negb]; Z.div_mod_to_equations; lia.
  - rewrite L16. destruct (Z.eqb_spec ((8 * (n / 8) + 8) mod 16) 0); cbn [negb]; Z.div_mod_to_equations; lia.
Qed.
Lemma ret_class_size r rk : ret_class r rk -> (pi_size r =? 0) = match rk with RVoid => true | _ => false end.
Proof. intros (_ & _ & H). destruct rk as [|n|n|n]; destruct (Z.eqb_spec (pi_size r) 0); try reflexivity; lia. Qed.
Lemma ret_class_area r rk : ret_class r rk -> rk <> RVoid -> ret_area r = area rk.
Proof.
  intros (_ & _ & H) Hv. unfold ret_area, GetParamStackSize, GetRealSize. destruct rk as [|n|n|n]; [contradiction| | |]; cbn [area].
  - destruct H as (_ & Hz & [[Hb Hn]|(Hb & _ & _ & Hs & Hn)]); unfold by_ref in Hb; rewrite Hb; [reflexivity|]. rewrite Hs.
    destruct n as [|[|[|[|[|[|[|[|[|n]]]]]]]]]; try lia; reflexivity.
  - destruct H as (_ & Hb & _ & _ & Hs & Hn); unfold by_ref in Hb; rewrite Hb, Hs.
    destruct n as [|[|[|[|[|[|[|[|[|n]]]]]]]]]; try lia; reflexivity.
  - destruct H as (_ & Hb & _ & _ & _ & _ & _ & Hs & Hn); unfold by_ref in Hb; rewrite Hb, Hs. apply align_area. lia.
Qed.
Lemma ret_class_frame r rk : ret_class r rk -> frame_size r = fs_of rk.
Proof.
  intros H. unfold frame_size, fs_of. rewrite (ret_class_size _ _ H). destruct rk; [reflexivity| | |]; rewrite (ret_class_area _ _ H) by discriminate; reflexivity.
Qed.
Lemma ret_class_n r rk : ret_class r rk -> size_ok rk.
Proof. intros (_ & _ & H). unfold size_ok. destruct rk as [|n|n|n]; cbn [rsize] in *; lia. Qed.
Lemma vars_nonvoid r rk : ret_class r rk -> rk <> RVoid ->
  v_ret_ptr r = -72 /\ v_orig_ret r = -80 - area rk /\ v_override_ret r = -80 - 2 * area rk /\ v_plugin_ret r = -80 - 3 * area rk.
Proof.
  intros H Hv. pose proof (ret_class_area _ _ H Hv) as A. pose proof (ret_class_size _ _ H) as S.
  unfold v_ret_ptr, v_orig_ret, v_override_ret, v_plugin_ret. rewrite S, A. destruct rk; [contradiction| | |]; repeat split; reflexivity.
Qed.

(** ** Single instructions by their form *)
Ltac uregs := repeat (rewrite upd_same || (rewrite upd_diff by discriminate)).
(** values known by equations *)
Ltac known := repeat (match goal with E : ld8 ?m ?a = _ |- context [ld8 ?m ?a] => rewrite E end || match goal with E : w64 ?a = _ |- context [w64 ?a] => rewrite E end
  || match goal with E : rg ?s ?a = _ |- context [rg ?s ?a] => rewrite E end || match goal with E : xm ?s ?a = _ |- context [xm ?s ?a] => rewrite E end).
Ltac nb := repeat match goal with |- context [?b + Zneg ?p] => change (b + Zneg p) with (b - Zpos p) end.
Ltac nrm := sst; uregs; nb; known.
Ltac side :=
  lazymatch goal with
  | |- Jit64Frame.I _ _ _ _ _ => eassumption
  | |- ?a + ?b = ?v => is_evar v; let c := eval cbn in (a + b) in change (c = v); reflexivity
  | |- ?a - ?b = ?v => is_evar v; let c := eval cbn in (a - b) in change (c = v); reflexivity
  | |- ?a = ?v => first [is_evar v; nrm; reflexivity | reflexivity | lia]
  | |- uint64_ok _ => assumption
  | |- _ => first [eassumption | lia]
  end.
Ltac uv := unfold v_original_rbp, v_vfnptr_origentry, v_status, v_prev_res, v_cur_res, v_iter, v_pContext, v_this, MRES_IGNORED, MRES_OVERRIDE, MRES_SUPERCEDE, SIZE_PTR in *.
Ltac go_step :=
  lazymatch goal with
  | |- ok [] _ _ => apply ok_nil
  | |- ok (AMovRM _ (Rm RBP _) :: _) _ _ => eapply ok_load
  | |- ok (AMovRM _ (Rm _ _) :: _) _ _ => eapply ok_loadr
  | |- ok (AMovMR (Rm RBP _) _ :: _) _ _ => eapply ok_store
  | |- ok (AMovMR (Rm RSP _) _ :: _) _ _ => eapply ok_stores
  | |- ok (AMovMR (Rm _ _) _ :: _) _ _ => eapply ok_storer
  | |- ok (AMovMI (Rm RBP _) _ :: _) _ _ => eapply ok_zero
  | |- ok (ASubRI RSP _ :: _) _ _ => eapply ok_sub
  | |- ok (AAddRI RSP _ :: _) _ _ => eapply ok_add
  | |- ok (AMovRR _ _ :: _) _ _ => eapply ok_movrr
  | |- ok (AMovRU _ _ :: _) _ _ => eapply ok_movru
  | |- ok (AMovRI _ _ :: _) _ _ => eapply ok_movri
  | |- ok (ALea _ (Rm RBP _) :: _) _ _ => eapply ok_lea
  | |- ok (AXorRR _ _ :: _) _ _ => eapply ok_xor
  | |- ok (ATestRR _ _ :: _) _ _ => eapply ok_test
  | |- ok (AMovsdXM _ (Rm RBP _) :: _) _ _ => eapply ok_movsd_load
  | |- ok (AMovsdXM _ (Rm _ _) :: _) _ _ => eapply ok_movsd_loadr
  | |- ok (AMovsdMX (Rm RBP _) _ :: _) _ _ => eapply ok_movsd_store
  end.
Ltac go := go_step; [side ..|]; intros.

Record setting (k : consts) (r : passinfo) (ps : list passinfo) (rk : rkind) (s0 : st) (B base : Z) (env : nat -> Z -> st -> st) : Prop := mkSetting {
  x_sp : rg s0 RSP = B;
  x_wf : wf s0;
  x_al : aligned s0;
  x_range : 2 ^ 20 <= B <= W64 - 2 ^ 20;
  x_len : Z.of_nat (length ps) <= 2 ^ 16;
  x_cl : ret_class r rk;
  x_target : target_ok (map pk_of ps) rk s0;
  x_k : consts_ok k;
  x_par : Forall param_ok ps;
  x_env : conforming (map pk_of ps) rk s0 (the_vars rk B) (B - fs_of rk) env }.

Lemma rkind_eq_void rk : {rk = RVoid} + {rk <> RVoid}.
Proof. destruct rk; [left; reflexivity|right; discriminate|right; discriminate|right; discriminate]. Qed.

Lemma nth_lt {A} (l : list A) i p : nth_error l i = Some p -> Z.of_nat i < Z.of_nat (length l).
Proof. intros H. assert (i < length l)%nat by (apply nth_error_Some; rewrite H; discriminate). lia. Qed.

Section Blocks.
Variables (k : consts) (r : passinfo) (ps : list passinfo) (rk : rkind) (s0 : st) (B : Z).
Notation fs := (fs_of rk).
Notation pks := (map pk_of ps).
Variables (base : Z) (env : nat -> Z -> st -> st).
Hypothesis X : setting k r ps rk s0 B base env.
Let HB := x_sp _ _ _ _ _ _ _ _ X.
Let Hwf := x_wf _ _ _ _ _ _ _ _ X.
Let Hal := x_al _ _ _ _ _ _ _ _ X.
Let Hsp := x_range _ _ _ _ _ _ _ _ X.
Let Hlen := x_len _ _ _ _ _ _ _ _ X.
Let Hcl := x_cl _ _ _ _ _ _ _ _ X.
Let Hk := x_k _ _ _ _ _ _ _ _ X.
Let Hpar := x_par _ _ _ _ _ _ _ _ X.
Let Henv := x_env _ _ _ _ _ _ _ _ X.

Notation I := (Jit64Frame.I s0 fs B).
Notation Own := (own pks rk s0 (the_vars rk B)).
Notation Agree := (agree pks rk s0 (the_vars rk B)).
Notation Called := (called pks rk s0 fs B).
Notation Call := (call pks rk s0 (the_vars rk B) (B - fs)).
Notation Fixed := (fixed pks rk B).
Notation Kept := (kept pks rk B).
Notation h := (iface_of k).

Lemma Hps : Z.of_nat (length pks) <= 2 ^ 16. Proof. rewrite map_length. exact Hlen. Qed.
Lemma Hn : size_ok rk. Proof. exact (ret_class_n _ _ Hcl). Qed.
Lemma Hfs : fs = match rk with RVoid => 64 | _ => 80 + 4 * area rk end. Proof. reflexivity. Qed.
Lemma Hfacts : 16 <= area rk <= 2 ^ 16 + 16 /\ area rk mod 16 = 0 /\ 0 <= Z.of_nat (rsize rk) <= area rk /\
  ((pn rk = 0 /\ area rk = 16 /\ Z.of_nat (rsize rk) <= 8 /\ hidden rk = 0%nat) \/
   (0 < pn rk /\ pn rk = Z.of_nat (rsize rk) /\ hidden rk = 1%nat /\ 4 * area rk <= 4 * pn rk + 60)).
Proof. exact (area_facts rk Hn). Qed.
Lemma fs_c : (fs = 64 /\ Z.of_nat (rsize rk) = 0 /\ pn rk = 0) \/ fs = 80 + 4 * area rk. Proof. apply (fs_cases rk fs Hn Hfs). Qed.
Lemma Hfsr : 0 <= fs <= 2 ^ 18 + 2 ^ 8. Proof. pose proof Hfacts. pose proof fs_c. lia. Qed.
Lemma depthge : 256 <= depth pks rk <= 2 ^ 19 + 2 ^ 18 + 256 /\ fs + 112 + 8 * Z.of_nat (length ps) <= depth pks rk.
Proof. pose proof (depth_ge pks rk fs Hps Hn Hfs) as H. rewrite map_length in H. exact H. Qed.
Lemma W64v : W64 = 2 ^ 64. Proof. reflexivity. Qed.
Lemma ownfixed x : Fixed x -> Own x /\ B - fs <= x. Proof. apply (own_fixed pks rk s0 fs B HB Hps Hn Hfs). Qed.
Lemma ownbelow x : B - depth pks rk <= x < B - fs -> Own x. Proof. apply (own_below pks rk s0 fs B HB Hps Hn Hfs). Qed.
Lemma owniter x : B - 48 <= x < B - 40 -> Own x. Proof. apply (own_iter pks rk s0 fs B HB Hps Hn Hfs). Qed.
Lemma ownupper x : (B - 36 <= x < B - 32 \/ B - 28 <= x < B - 24 \/ B - 20 <= x < B - 16) -> Own x. Proof. apply (own_upper pks rk s0 fs B HB Hps Hn Hfs). Qed.
Lemma ownsh x : Own x <-> (B - depth pks rk <= x < B + 8 + 8 * slots pks rk /\ ~ sh rk B x). Proof. apply (own_sh pks rk s0 fs B HB Hn Hfs). Qed.
Lemma agree_ld n m m' a : Agree m m' -> 0 <= a -> a + Z.of_nat n <= W64 -> (forall x, a <= x < a + Z.of_nat n -> ~ Own x) -> ld m' a n = ld m a n.
Proof. intros H H1 H2 Hx. apply ld_ext; [exact H1|exact H2|]. intros x Hin. apply H, Hx, Hin. Qed.

(** ** What the frame holds *)
Record J (ctx : Z) (m : Z -> Z) : Prop := mkJ {
  j_bp : ld8 m (B - 8) = rg s0 RBP;
  j_this : ld8 m (B - 64) = arg s0 0;
  j_ctx : ld8 m (B - 56) = ctx;
  j_up : forall x, (B - 36 <= x < B - 32 \/ B - 28 <= x < B - 24 \/ B - 20 <= x < B - 16) -> m x = 0;
  j_home : forall i p, nth_error pks i = Some p -> ld8 m (B + 8 + 8 * Z.of_nat (S (hidden rk + i))) = if pk_float p then farg s0 (S (hidden rk + i)) else arg s0 (S (hidden rk + i));
  j_mem : 0 < pn rk -> ld8 m (B - 80) = arg s0 1;
  j_ra : forall x, B <= x < B + 8 -> m x = mm s0 x }.
Lemma J_kept ctx m m' : J ctx m -> Kept m m' -> J ctx m'.
Proof.
  intros [j1 j2 j3 j4 j5 j7 j6] K. pose proof Hps as HN. pose proof W64v as HW. pose proof (slots_ge pks rk Hps Hn) as HS. constructor.
  - rewrite <- j1. apply (kept_ld8 pks rk B); [exact K|intros x Hx; unfold fixed; lia|lia|lia].
  - rewrite <- j2. apply (kept_ld8 pks rk B); [exact K|intros x Hx; unfold fixed; lia|lia|lia].
  - rewrite <- j3. apply (kept_ld8 pks rk B); [exact K|intros x Hx; unfold fixed; lia|lia|lia].
  - intros x Hx. rewrite K; [apply j4, Hx|unfold fixed; lia].
  - intros i p Hi. rewrite <- (j5 i p Hi). pose proof (nth_lt _ _ _ Hi).
    apply (kept_ld8 pks rk B); [exact K|intros x Hx; unfold fixed; lia|lia|lia].
  - intros Hm. rewrite <- (j7 Hm). apply (kept_ld8 pks rk B); [exact K|intros x Hx; unfold fixed; lia|lia|lia].
  - intros x Hx. rewrite K; [apply j6, Hx|unfold fixed; lia].
Qed.
Lemma kept_called c s t e s' : Called c s t e s' -> Kept (mm s) (mm s').
Proof. intros C x Hx. destruct (ownfixed x Hx). apply (cl_own _ _ _ _ _ _ _ _ _ _ C); assumption. Qed.
(** the small variables *)
Definition small_at (a : Z) : Prop := a = B - 24 \/ a = B - 32 \/ a = B - 40.
Lemma small_ld ctx m a : J ctx m -> small_at a -> ld8 m a = ld m a 4.
Proof.
  intros H Ha. apply ld8_low. pose proof W64v as HW. unfold small_at in Ha. change (Z.of_nat 4) with 4.
  apply ld_zero; change (Z.of_nat 4) with 4; [lia|lia|]. intros x Hx. apply (j_up _ _ H). lia.
Qed.
Lemma small_kept ctx m a v : J ctx m -> small_at a -> 0 <= v < 2 ^ 32 -> Kept m (st8 m a v).
Proof.
  intros H Ha Hv x Hx. pose proof W64v as HW. unfold small_at in Ha.
  destruct (Z_lt_dec x a) as [L|L]; [apply st8_out; lia|]. destruct (Z_lt_dec x (a + 8)) as [L2|L2]; [|apply st8_out; lia].
  unfold fixed in Hx. rewrite st8_in by lia. rewrite (j_up _ _ H) by lia. apply (byte_small v 4); [exact Hv|lia|lia].
Qed.
Lemma small_agree mu m a v v' : Agree mu m -> small_at a -> v' = v -> Agree (sto mu a 4 v) (st8 m a v').
Proof.
  intros H Ha ->. pose proof W64v as HW. unfold small_at in Ha. apply agree_sto; [lia|lia|lia|reflexivity| |exact H].
  intros x Hx. change (Z.of_nat 4) with 4 in Hx. apply ownupper. lia.
Qed.
Lemma shared_not_own x : sh rk B x -> ~ Own x.
Proof. intros H C. apply ownsh in C. tauto. Qed.
Lemma small_agree_ld mu m a : Agree mu m -> small_at a -> ld m a 4 = ld mu a 4.
Proof.
  intros H Ha. pose proof W64v as HW. unfold small_at in Ha. apply agree_ld; change (Z.of_nat 4) with 4; [exact H|lia|lia|].
  intros x Hx. apply shared_not_own. unfold sh. lia.
Qed.

(** ** Runs *)
Definition R (pre l : list asm) (s : st) (tr : list event) (Q : st -> list event -> Prop) : Prop :=
  exists s' tr', T base env pre l (s, tr) (s', tr') /\ Q s' tr'.
Lemma R_nil pre s tr (Q : st -> list event -> Prop) : Q s tr -> R pre [] s tr Q.
Proof. intros H. exists s, tr. split; [apply T_nil|exact H]. Qed.
Lemma R_app pre l1 l2 s tr Q : R pre l1 s tr (fun s1 tr1 => R (pre ++ l1) l2 s1 tr1 Q) -> R pre (l1 ++ l2) s tr Q.
Proof. intros (s1 & tr1 & H1 & s2 & tr2 & H2 & HQ). exists s2, tr2. split; [eapply T_app; eassumption|exact HQ]. Qed.
Lemma R_block pre l s tr (Q : st -> list event -> Prop) : Forall asm_ok l -> forallb straight l = true -> ok l s (fun s' => Q s' tr) -> R pre l s tr Q.
Proof. intros Ha Hs (s' & H & HQ). exists s', tr. split; [apply T_block; assumption|exact HQ]. Qed.
Lemma R_call pre q s tr c (Q : st -> list event -> Prop) : reg_ok q -> I c s -> 32 <= c -> c mod 16 = 8 -> fs + c + 8 <= depth pks rk ->
  (forall e s', Called c s (rg s q) e s' -> Q s' (tr ++ [e])) -> R pre [ACall q] s tr Q.
Proof.
  intros Hr HI Hc Hm Hd K.
  destruct (run_called pks rk s0 fs B HB Hal Hsp Hps Hn Hfs base env Henv pre q s tr c Hr HI Hc Hm Hd) as (e & s' & HT & HC).
  exists s', (tr ++ [e]). split; [exact HT|apply K, HC].
Qed.
Lemma R_weak pre l s tr (Q Q' : st -> list event -> Prop) : (forall s' tr', Q s' tr' -> Q' s' tr') -> R pre l s tr Q -> R pre l s tr Q'.
Proof. intros H (s' & tr' & HT & HQ). exists s', tr'. auto. Qed.

Lemma call_of n c s t e s' mu (P : (Z -> Z) -> Prop) : Called c s t e s' -> 8 * Z.max 4 (Z.of_nat n) <= c -> Agree mu (mm s) -> P (mm s) -> Call n mu e P.
Proof.
  intros C Hc A HP. split; [apply (cl_aligned _ _ _ _ _ _ _ _ _ _ C)|]. split; [rewrite (cl_rsp _ _ _ _ _ _ _ _ _ _ C); lia|]. exists (mm s).
  split; [exact A|]. split; [apply (cl_agree _ _ _ _ _ _ _ _ _ _ C)|exact HP].
Qed.

(** ** Calls on the context *)
Ltac kx := pose proof Hk as (? & ? & ? & ? & ? & ? & ? & ? & ? & ? & ? & ? & ? & ? & ?).
Ltac aok := clear Hcl Hpar Henv; kx; rok.
Ltac basics := pose proof depthge as HD; pose proof Hfsr as HF; pose proof W64v as HW; pose proof Hfacts as HG; pose proof fs_c as HFC.
Lemma ctx_range c s ctx : I c s -> J ctx (mm s) -> 0 <= ctx < W64.
Proof. intros H1 H2. rewrite <- (j_ctx _ _ H2). apply ld8_range. apply (I_bytes _ _ _ _ _ H1). Qed.
Lemma w0 x : 0 <= x < W64 -> w64 (x + 0) = x.
Proof. intros H. rewrite Z.add_0_r. apply w64_small, H. Qed.
(** after a call *)
Lemma after_called c s t e s' ctx : Called c s t e s' -> J ctx (mm s) -> J ctx (mm s') /\ Agree (mm (e_out e)) (mm s') /\ I c s'.
Proof.
  intros C HJ. split; [eapply J_kept; [exact HJ|eapply kept_called; exact C]|]. split; [|apply (cl_I _ _ _ _ _ _ _ _ _ _ C)].
  rewrite (cl_mem _ _ _ _ _ _ _ _ _ _ C). apply agree_refl.
Qed.
(** a call of a virtual function of the context from the state [s1] *)
Lemma virt_called c s1 i ctx m mu e s' : Called c s1 (ld8 m (w64 (ld8 m ctx + i * 8))) e s' -> 32 <= c -> mm s1 = m -> Agree mu m -> rg s1 RCX = ctx -> Call 1 mu e (virt ctx i e).
Proof.
  intros C Hc Em HA Ec. eapply call_of; [exact C|cbn; lia|rewrite Em; exact HA|]. rewrite Em. split.
  - rewrite (cl_target _ _ _ _ _ _ _ _ _ _ C). do 2 f_equal. lia.
  - rewrite (cl_reg _ _ _ _ _ _ _ _ _ _ C) by lia. exact Ec.
Qed.

Lemma R_next pre s tr ctx mu (Q : st -> list event -> Prop) : I 0 s -> J ctx (mm s) -> Agree mu (mm s) ->
  (forall e s', Call 1 mu e (virt ctx (x_next h) e) -> I 0 s' -> J ctx (mm s') -> Agree (mm (e_out e)) (mm s') -> ld8 (mm s') (B - 48) = rax e ->
     zf s' = (rax e =? 0) -> Q s' (tr ++ [e])) ->
  R pre (hk_head k) s tr Q.
Proof.
  intros HI HJ HA K. pose proof (ctx_range _ _ _ HI HJ) as HC. basics.
  pose proof (j_ctx _ _ HJ) as Ec. pose proof (w0 _ HC) as E0.
  unfold hk_head, hk_next, ctx_fun, hk_test. uv. cbn [app].
  change (?a :: ?b :: ?c :: ?d :: ?e :: ?f :: ?l) with ([a; b; c; d; e] ++ [f] ++ l). apply R_app, R_block; [aok|reflexivity|].
  go. go. go. go. go. go. apply R_app. eapply R_call; [split; [discriminate|reflexivity]|eassumption|lia|reflexivity|lia|].
  sst. uregs. intros e s' C. destruct (after_called _ _ _ _ _ ctx C HJ) as (HJ' & HA' & HI').
  apply R_block; [aok|reflexivity|].
  pose proof (cl_rax _ _ _ _ _ _ _ _ _ _ C) as Er.
  pose proof (I_rg _ _ _ _ _ RAX HI') as Rr. rewrite Er in Rr.
  go. go. go. go. apply K.
  - eapply virt_called; [exact C|lia|reflexivity|exact HA|reflexivity].
  - assumption.
  - sst. eapply J_kept; [exact HJ'|]. apply kept_st8; [lia|lia|]. intros x Hx. unfold fixed. lia.
  - sst. eapply agree_trans; [exact HA'|]. apply agree_own; [lia|lia|]. intros x Hx. apply owniter. lia.
  - sst. apply ld8_st8_same; lia.
  - sst. uregs. rewrite Z.land_diag. reflexivity.
Qed.


(** ** Passing the parameters on *)
Definition nstk : nat := (length ps - (3 - hidden rk))%nat.
Definition space : Z := 32 + Z.of_nat nstk * 8 + (if Z.of_nat nstk mod 2 =? 0 then 8 else 0).
Lemma space_mod : space mod 16 = 8.
Proof. unfold space. destruct (Z.eqb_spec (Z.of_nat nstk mod 2) 0); Z.div_mod_to_equations; lia. Qed.
Lemma space_range : 32 + 8 * Z.of_nat nstk <= space /\ space <= 40 + 8 * Z.of_nat (length ps).
Proof. unfold space, nstk. destruct (Z.eqb_spec (Z.of_nat (length ps - (3 - hidden rk)) mod 2) 0); lia. Qed.
Lemma slots_room : 8 * Z.max 4 (Z.of_nat (nargs pks rk)) <= space.
Proof. pose proof space_range as [H _]. pose proof Hfacts as (_ & _ & _ & F). unfold nstk in H. unfold nargs. rewrite map_length. lia. Qed.
Lemma ret_mem_eq : ret_mem r = (0 <? pn rk).
Proof. destruct Hcl as (_ & _ & H). unfold pn. destruct rk as [|n|n|n]; destruct H as (H & H2); rewrite H; try reflexivity. symmetry. apply Z.ltb_lt. lia. Qed.
Lemma mem_void : 0 < pn rk -> rk <> RVoid.
Proof. intros H ->. discriminate H. Qed.
Lemma hidden_eq : (if 0 <? pn rk then 2%nat else 1%nat) = S (hidden rk).
Proof. pose proof Hfacts as (_ & _ & _ & [(E & _ & _ & ->)|(E & _ & -> & _)]); [rewrite E; reflexivity|]. destruct (Z.ltb_spec 0 (pn rk)); [reflexivity|lia]. Qed.
Lemma first_reg_eq : first_reg r = S (hidden rk).
Proof. unfold first_reg. rewrite ret_mem_eq. apply hidden_eq. Qed.
Lemma size_mem : negb (pi_size r =? 0) && ret_mem r = (0 <? pn rk).
Proof. rewrite ret_mem_eq, (ret_class_size _ _ Hcl). unfold pn. destruct rk; reflexivity. Qed.
Lemma on_stack_eq : on_stack ps (S (hidden rk)) = nstk.
Proof. reflexivity. Qed.
Lemma push_r_eq o v : push_r r ps o v = [AMovRM RCX (Rm RBP o)] ++ (if 0 <? pn rk then [ALea RDX (Rm RBP v)] else []) ++ load_regs ps (S (hidden rk)) ++ [ASubRI RSP 32] ++ [ASubRI RSP (Z.of_nat nstk * 8)]
  ++ (if Z.of_nat nstk mod 2 =? 0 then [ASubRI RSP 8] else []) ++ copy_stack nstk 0.
Proof.
  unfold push_r, PushParameters. rewrite size_mem, hidden_eq. reflexivity.
Qed.
Lemma push_space_eq o v : push_space r ps o v = space.
Proof. unfold push_space, PushParameters. rewrite size_mem, hidden_eq. reflexivity. Qed.

Notation ix i := (S (hidden rk + i)).
Definition loaded (s : st) : Prop := forall i p, nth_error pks i = Some p -> (ix i < 4)%nat ->
  if pk_float p then xm s (Z.of_nat (ix i)) = farg s0 (ix i) else rg s (preg (ix i)) = arg s0 (ix i).
Lemma home_eq i m ctx p : J ctx m -> nth_error pks i = Some p -> ld8 m (B + (Z.of_nat (ix i) * 8 + 8)) = if pk_float p then farg s0 (ix i) else arg s0 (ix i).
Proof. intros HJ Hi. rewrite <- (j_home _ _ HJ i p Hi). f_equal. lia. Qed.
Lemma preg_vol i : (i < 4)%nat -> isvol (preg i) = true.
Proof. intros H. destruct i as [|[|[|[|i]]]]; [reflexivity|reflexivity|reflexivity|reflexivity|lia]. Qed.
Lemma preg_inj i j : (i < 4)%nat -> (j < 4)%nat -> i <> j -> preg i <> preg j.
Proof.
  intros Hi Hj Hij. destruct i as [|[|[|[|i]]]]; [| | | |lia]; (destruct j as [|[|[|[|j]]]]; [| | | |lia]); try (exfalso; apply Hij; reflexivity); discriminate.
Qed.
Lemma load_regs_gen V c l : forall i s, (i <= 4)%nat -> I c s ->
  (forall j p, nth_error l j = Some p -> (i + j < 4)%nat -> ld8 (mm s) (B + (Z.of_nat (i + j) * 8 + 8)) = V (i + j)%nat) ->
  ok (load_regs l i) s (fun s' => I c s' /\ mm s' = mm s /\ (forall q, (q < i)%nat -> rg s' (preg q) = rg s (preg q) /\ xm s' (Z.of_nat q) = xm s (Z.of_nat q)) /\
    forall j p, nth_error l j = Some p -> (i + j < 4)%nat -> if is_float p then xm s' (Z.of_nat (i + j)) = V (i + j)%nat else rg s' (preg (i + j)) = V (i + j)%nat).
Proof.
  induction l as [|p l IH]; intros i s Hi HI HV; cbn [load_regs].
  - apply ok_nil. split; [exact HI|]. split; [reflexivity|]. split; [intros; split; reflexivity|]. intros [|j] q Hq; discriminate Hq.
  - destruct (Nat.ltb_spec i 4) as [L|L].
    2:{ apply ok_nil. split; [exact HI|]. split; [reflexivity|]. split; [intros; split; reflexivity|]. intros j q _ Hj. lia. }
    pose proof (HV 0%nat p eq_refl) as V0. rewrite Nat.add_0_r in V0. specialize (V0 L).
    assert (HV' : forall j q, nth_error l j = Some q -> (S i + j < 4)%nat -> ld8 (mm s) (B + (Z.of_nat (S i + j) * 8 + 8)) = V (S i + j)%nat).
    { intros j q Hq Hj. pose proof (HV (S j) q Hq) as Hs. rewrite Nat.add_succ_r in Hs. apply Hs. exact Hj. }
    unfold home. destruct (is_float p) eqn:F.
    + eapply ok_movsd_load; [exact Hsp|exact HI|lia|exact V0|]. intros HI1.
      destruct (IH (S i) _ ltac:(lia) HI1 HV') as (s' & E & A1 & A2 & A3 & A4). exists s'. split; [exact E|]. split; [exact A1|]. split; [exact A2|]. split.
      * intros q Hq. destruct (A3 q ltac:(lia)) as [B1 B2]. rewrite B1, B2. sst. split; [reflexivity|]. apply upd_diff. lia.
      * intros [|j] q Hq Hj.
        -- inversion Hq. subst q. rewrite F, Nat.add_0_r. destruct (A3 i ltac:(lia)) as [_ B2]. rewrite B2. sst. apply upd_same.
        -- rewrite Nat.add_succ_r. apply (A4 j q Hq). lia.
    + eapply ok_load; [exact Hsp|exact HI|apply preg_vol; exact L|lia|exact V0|]. intros HI1.
      destruct (IH (S i) _ ltac:(lia) HI1 HV') as (s' & E & A1 & A2 & A3 & A4). exists s'. split; [exact E|]. split; [exact A1|]. split; [exact A2|]. split.
      * intros q Hq. destruct (A3 q ltac:(lia)) as [B1 B2]. rewrite B1, B2. sst. split; [|reflexivity]. apply upd_diff. apply preg_inj; lia.
      * intros [|j] q Hq Hj.
        -- inversion Hq. subst q. rewrite F, Nat.add_0_r. destruct (A3 i ltac:(lia)) as [B1 _]. rewrite B1. sst. apply upd_same.
        -- rewrite Nat.add_succ_r. apply (A4 j q Hq). lia.
Qed.
Definition val (j : nat) : Z := match nth_error pks (j - S (hidden rk)) with Some p => if pk_float p then farg s0 j else arg s0 j | None => 0 end.
Lemma ok_load_regs s ctx c : I c s -> J ctx (mm s) ->
  ok (load_regs ps (S (hidden rk))) s (fun s' => I c s' /\ mm s' = mm s /\ (forall q, (q < S (hidden rk))%nat -> rg s' (preg q) = rg s (preg q)) /\ loaded s').
Proof.
  intros HI HJ. pose proof Hfacts as (_ & _ & _ & F). destruct (load_regs_gen val c ps (S (hidden rk)) s ltac:(lia) HI) as (s' & E & A1 & A2 & A3 & A4).
  - intros j p Hp Hj. cbn [Nat.add] in *. assert (Hp' : nth_error pks j = Some (pk_of p)) by (apply map_nth_error; exact Hp).
    rewrite (home_eq j _ _ _ HJ Hp'). unfold val. replace (ix j - S (hidden rk))%nat with j by lia. rewrite Hp'. reflexivity.
  - exists s'. split; [exact E|]. split; [exact A1|]. split; [exact A2|]. split; [intros q Hq; apply (A3 q Hq)|].
    intros i p Hi Hlt. destruct (nth_error ps i) as [q|] eqn:Eq.
    2:{ rewrite nth_error_map, Eq in Hi. discriminate Hi. }
    pose proof Hi as Hi'. rewrite nth_error_map, Eq in Hi'. inversion Hi'. subst p. pose proof (A4 i q Eq Hlt) as Hv. cbn [Nat.add] in Hv.
    unfold val in Hv. replace (ix i - S (hidden rk))%nat with i in Hv by lia. rewrite Hi in Hv. cbn [pk_of pk_float] in *. destruct (is_float q); exact Hv.
Qed.

Lemma ok_copy c n : forall i s, I c s -> 0 <= i -> 32 + 8 * (i + Z.of_nat n) <= c -> c <= 2 ^ 19 + 2 ^ 12 ->
  ok (copy_stack n i) s (fun s' => I c s' /\ (forall q, q <> RAX -> rg s' q = rg s q) /\ xm s' = xm s /\
    (forall x, ~ (B - fs - c + 32 + 8 * i <= x < B - fs) -> mm s' x = mm s x) /\
    (forall j, i <= j < i + Z.of_nat n -> ld8 (mm s') (B - fs - c + 32 + 8 * j) = ld8 (mm s) (B + 40 + 8 * j))).
Proof.
  basics. induction n as [|n IH]; intros i s HI Hi Hc Hc2; cbn [copy_stack].
  - apply ok_nil. split; [exact HI|]. split; [reflexivity|]. split; [reflexivity|]. split; [reflexivity|]. intros j Hj. lia.
  - cbn [app]. eapply ok_load; [exact Hsp|exact HI|reflexivity|lia|reflexivity|]. intros HI1.
    eapply ok_stores; [exact Hsp|exact HF|exact HI1|lia|lia|reflexivity|reflexivity|]. sst. rewrite upd_same. intros HI2.
    destruct (IH (i + 1) _ HI2 ltac:(lia) ltac:(lia) Hc2) as (s' & E & A1 & A2 & A3 & A4 & A5). revert A2 A3 A4 A5. sst. intros A2 A3 A4 A5.
    exists s'. split; [exact E|]. split; [exact A1|]. split; [intros q Hq; rewrite A2 by exact Hq; apply upd_diff; exact Hq|]. split; [exact A3|]. split.
    + intros x Hx. rewrite A4 by lia. apply st8_out; lia.
    + intros j Hj. destruct (Z.eq_dec j i) as [-> |Hne].
      * rewrite (ld8_ext (mm s') (st8 (mm s) (B - fs - c + (32 + 8 * i)) (ld8 (mm s) (B + (40 + 8 * i))))) by (lia || (intros x Hx; apply A4; lia)).
        replace (B - fs - c + (32 + 8 * i)) with (B - fs - c + 32 + 8 * i) by lia. rewrite ld8_st8_same; [f_equal; lia|lia|lia|]. apply ld8_range, (I_bytes _ _ _ _ _ HI).
      * rewrite A5 by lia. apply ld8_st8_diff; lia.
Qed.

(** the parameters are in place for a call with [c] bytes below the frame *)
Definition pass (c : Z) (s : st) : Prop := loaded s /\ forall i p, nth_error pks i = Some p -> (4 <= ix i)%nat ->
  ld8 (mm s) (B - fs - c + 8 * Z.of_nat (ix i)) = (if pk_float p then farg s0 (ix i) else arg s0 (ix i)).
Lemma pass_params c s t e s' a : Called c s t e s' -> pass c s -> (0 < pn rk -> rg s RDX = a) -> params pks rk s0 a e.
Proof.
  intros C (P1 & P2) Ha. split.
  - intros i p Hi. pose proof (nth_lt _ _ _ Hi) as L. pose proof Hps. pose proof Hfacts as (_ & _ & _ & F). cbv zeta. destruct (Nat.ltb_spec (ix i) 4) as [L4|L4].
    + specialize (P1 i p Hi L4). destruct (pk_float p).
      * rewrite (cl_freg _ _ _ _ _ _ _ _ _ _ C) by lia. exact P1.
      * rewrite (cl_reg _ _ _ _ _ _ _ _ _ _ C) by lia. exact P1.
    + specialize (P2 i p Hi L4). destruct (pk_float p).
      * rewrite (cl_fstk _ _ _ _ _ _ _ _ _ _ C) by lia. exact P2.
      * rewrite (cl_stk _ _ _ _ _ _ _ _ _ _ C) by lia. exact P2.
  - pose proof Hn as N. unfold pn, size_ok in *. destruct rk; try exact Logic.I. rewrite (cl_reg _ _ _ _ _ _ _ _ _ _ C) by lia. apply Ha. lia.
Qed.
Lemma preg_other i q : q = RAX \/ q = RSP -> (i < 4)%nat -> preg i <> q.
Proof. intros H L. destruct i as [|[|[|[|i]]]]; [| | | |lia]; destruct H as [-> | ->]; discriminate. Qed.
Lemma pass_rax c s v : pass c s -> pass c (set_rg s RAX v).
Proof.
  intros (P1 & P2). split; [|exact P2]. intros i p Hi L. specialize (P1 i p Hi L). destruct (pk_float p); [exact P1|].
  cbn [rg set_rg]. rewrite upd_diff; [exact P1|]. apply preg_other; auto.
Qed.

Lemma ok_push o v s ctx obj (Q : st -> Prop) : I 0 s -> J ctx (mm s) -> - 2 ^ 10 <= o < 0 -> - 2 ^ 19 <= v <= 0 -> ld8 (mm s) (B + o) = obj ->
  (forall s', I space s' -> rg s' RCX = obj -> (0 < pn rk -> rg s' RDX = B + v) -> pass space s' -> (forall x, ~ (B - fs - space <= x < B - fs) -> mm s' x = mm s x) -> Q s') ->
  ok (push_r r ps o v) s Q.
Proof.
  intros HI HJ Ho Hv0 Eo K. basics. pose proof space_range as SR. pose proof Hlen as HL. rewrite push_r_eq. cbn [app].
  eapply ok_load; [exact Hsp|exact HI|reflexivity|lia|exact Eo|]. intros HI0.
  apply ok_app.
  assert (Mid : forall s1, I 0 s1 -> mm s1 = mm s -> rg s1 RCX = obj -> (0 < pn rk -> rg s1 RDX = B + v) ->
    ok (load_regs ps (S (hidden rk)) ++ [ASubRI RSP 32] ++ [ASubRI RSP (Z.of_nat nstk * 8)] ++ (if Z.of_nat nstk mod 2 =? 0 then [ASubRI RSP 8] else []) ++ copy_stack nstk 0) s1 Q).
  2:{ destruct (Z.ltb_spec 0 (pn rk)) as [Lp|Lp].
      - eapply ok_lea; [exact Hsp|exact HI0|reflexivity|lia|]. intros HI1. apply ok_nil. apply Mid; [exact HI1|reflexivity|sst; uregs; reflexivity|sst; uregs; reflexivity].
      - apply ok_nil. apply Mid; [exact HI0|reflexivity|sst; uregs; reflexivity|lia]. }
  intros s1 HI1 M1 C1 D1. rewrite <- M1 in HJ. clear HI HI0.
  apply ok_app. destruct (ok_load_regs _ ctx 0 HI1 HJ) as (s2 & E1 & HI2 & Em1 & Ec1 & HL1). exists s2. split; [exact E1|]. clear E1.
  assert (Ecx : rg s2 RCX = obj) by (rewrite <- C1; apply (Ec1 0%nat); lia).
  assert (Edx : 0 < pn rk -> rg s2 RDX = B + v) by (intros Hp; rewrite <- (D1 Hp); apply (Ec1 1%nat); lia).
  clear Ec1 C1 D1. rewrite M1 in Em1. cbn [app].
  eapply ok_sub; [exact Hsp|exact HF|exact HI2|reflexivity|lia|lia|lia|]. intros z n o' HI3. clear HI1 HI2.
  eapply ok_sub; [exact Hsp|exact HF|exact HI3|reflexivity|lia|lia|unfold nstk in *; lia|]. intros z2 n2 o2 HI4. clear HI3.
  assert (G : forall s3, I space s3 -> mm s3 = mm s -> rg s3 RCX = obj -> (0 < pn rk -> rg s3 RDX = B + v) -> loaded s3 -> ok (copy_stack nstk 0) s3 Q).
  { intros s3 I2 M2 C2 D2 L2. destruct (ok_copy space nstk 0 s3 I2 ltac:(lia) ltac:(lia) ltac:(lia)) as (s4 & E3 & A1 & A2 & A3 & A4 & A5).
    exists s4. split; [exact E3|]. apply K; [exact A1|rewrite A2 by discriminate; exact C2|intros Hp; rewrite A2 by discriminate; exact (D2 Hp)| |].
    - split.
      + intros i p Hi L. specialize (L2 i p Hi L). rewrite A3. destruct (pk_float p); [exact L2|]. rewrite A2; [exact L2|]. apply preg_other; auto.
      + intros i p Hi L. rewrite <- (j_home _ _ HJ i p Hi). rewrite M1, <- M2. pose proof (nth_lt _ _ _ Hi) as Li. rewrite map_length in Li.
        specialize (A5 (Z.of_nat (ix i) - 4)). unfold nstk in A5.
        replace (B - fs - space + 8 * Z.of_nat (ix i)) with (B - fs - space + 32 + 8 * (Z.of_nat (ix i) - 4)) by lia. rewrite A5 by lia. f_equal. lia.
    - intros x Hx. rewrite A4 by lia. rewrite M2. reflexivity. }
  set (s4 := set_rg _ RSP _) in *.
  assert (M4 : mm s4 = mm s) by (unfold s4; sst; exact Em1).
  assert (C4 : rg s4 RCX = obj) by (unfold s4; sst; uregs; exact Ecx).
  assert (D4 : 0 < pn rk -> rg s4 RDX = B + v) by (unfold s4; sst; uregs; exact Edx).
  assert (L4 : loaded s4).
  { unfold s4. intros i p Hi L. specialize (HL1 i p Hi L). sst. destruct (pk_float p); [exact HL1|].
    rewrite !upd_diff by (apply preg_other; auto). exact HL1. }
  clearbody s4. clear HL1 Em1 Ecx Edx. apply ok_app. unfold space in *. destruct (Z.of_nat nstk mod 2 =? 0).
  - eapply ok_sub; [exact Hsp|exact HF|exact HI4|reflexivity|lia|lia|unfold nstk in *; lia|]. intros z5 n5 o5 HI5. apply ok_nil.
    apply G; [replace (32 + Z.of_nat nstk * 8 + 8) with (0 + 32 + Z.of_nat nstk * 8 + 8) by lia; exact HI5|exact M4|sst; uregs; exact C4|sst; uregs; exact D4|].
    intros i p Hi L. specialize (L4 i p Hi L). sst. destruct (pk_float p); [exact L4|].
    rewrite !upd_diff by (apply preg_other; auto). exact L4.
  - apply ok_nil. apply G; [replace (32 + Z.of_nat nstk * 8 + 0) with (0 + 32 + Z.of_nat nstk * 8) by lia; exact HI4|exact M4|exact C4|exact D4|exact L4].
Qed.


(** ** The handler *)
Lemma load_regs_aok l : forall i, Forall asm_ok (load_regs l i) /\ forallb straight (load_regs l i) = true.
Proof.
  induction l as [|p l IH]; intros i; cbn [load_regs]; [split; [constructor|reflexivity]|].
  destruct (Nat.ltb_spec i 4) as [L|L]; [|split; [constructor|reflexivity]]. destruct (IH (S i)) as [A1 A2]. split.
  - constructor; [|exact A1]. unfold home. destruct i as [|[|[|[|i]]]]; [| | | |lia]; destruct (is_float p); cbn [asm_ok preg nth]; unfold reg_ok, rm_ok, int32_ok; cbn [rm_reg rm_disp]; unfold RBP, RCX, RDX, R8, R9; repeat split; discriminate || lia.
  - cbn [forallb]. rewrite A2. destruct (is_float p); reflexivity.
Qed.
Lemma copy_stack_aok n : forall i, 0 <= i -> i + Z.of_nat n <= 2 ^ 20 -> Forall asm_ok (copy_stack n i) /\ forallb straight (copy_stack n i) = true.
Proof.
  induction n as [|n IH]; intros i Hi Hn0; cbn [copy_stack]; [split; [constructor|reflexivity]|].
  destruct (IH (i + 1) ltac:(lia) ltac:(lia)) as [A1 A2]. cbn [app]. split; [|exact A2].
  constructor; [|constructor; [|exact A1]]; cbn [asm_ok]; unfold reg_ok, rm_ok, int32_ok; cbn [rm_reg rm_disp]; unfold RBP, RAX, RSP; repeat split; discriminate || lia.
Qed.
Lemma push_aok o v : - 2 ^ 10 <= o < 0 -> - 2 ^ 19 <= v <= 0 -> Forall asm_ok (push_r r ps o v) /\ forallb straight (push_r r ps o v) = true.
Proof.
  intros Ho Hv. rewrite push_r_eq. pose proof Hlen as HL. destruct (load_regs_aok ps (S (hidden rk))) as [A1 A2]. destruct (copy_stack_aok nstk 0 ltac:(lia) ltac:(unfold nstk; lia)) as [B1 B2]. split.
  - rewrite !Forall_app. repeat split; [rok|destruct (0 <? pn rk); rok|exact A1|rok| |destruct (_ =? _); rok|exact B1]. unfold nstk. rok.
  - rewrite !forallb_app, A2, B2. destruct (_ =? _), (0 <? pn rk); reflexivity.
Qed.

Definition resv (s : st) : Z := match rk with RVoid => 0 | RInt _ => rg s RAX | RFloat _ => xm s 0 | RMem _ => 0 end.
Lemma temp_false : 0 < pn rk -> MemRetWithTempObj r = false.
Proof. destruct Hcl as (_ & _ & H). unfold pn. destruct rk; [discriminate|discriminate|discriminate|]. intros _. apply H. Qed.
Lemma ret_mem_false : pn rk = 0 -> ret_mem r = false.
Proof. intros H. rewrite ret_mem_eq, H. reflexivity. Qed.
Lemma hk_ret_eq : rk <> RVoid -> hk_ret r = -80 - 3 * area rk \/ pn rk = 0.
Proof.
  intros Hv. destruct (vars_nonvoid _ _ Hcl Hv) as (_ & _ & _ & Vp). pose proof Hfacts as (_ & _ & _ & [(E & _)|(E & _)]); [auto|].
  left. unfold hk_ret. rewrite temp_false by exact E. exact Vp.
Qed.
Lemma ret_vals_range : - 2 ^ 19 <= hk_ret r <= 0 /\ - 2 ^ 19 <= og_ret r <= 0.
Proof.
  unfold hk_ret, og_ret, v_mem_ret, v_plugin_ret, v_orig_ret. rewrite (ret_class_size _ _ Hcl). pose proof Hfacts as (F & _). pose proof (ret_class_area _ _ Hcl) as A.
  destruct rk; [destruct (MemRetWithTempObj r); lia| | |]; rewrite A by discriminate; destruct (MemRetWithTempObj r); lia.
Qed.
Lemma save_mem vm vr : 0 < pn rk -> SaveReturnValue r vm vr = [].
Proof.
  intros H. unfold SaveReturnValue. rewrite (temp_false H), ret_mem_eq, (ret_class_size _ _ Hcl). destruct Hcl as (_ & _ & C). unfold pn in *. destruct rk; [discriminate H|discriminate H|discriminate H|].
  destruct C as (_ & Hb & Ht & _). unfold by_ref in Hb. rewrite Hb, Ht. destruct (0 <? Z.of_nat n); reflexivity.
Qed.
Lemma save_aok vm vr : - 2 ^ 19 <= vr < 0 -> pn rk = 0 -> Forall asm_ok (SaveReturnValue r vm vr) /\ forallb straight (SaveReturnValue r vm vr) = true.
Proof.
  intros Hv Hp. unfold SaveReturnValue. rewrite (ret_mem_false Hp). repeat match goal with |- context [if ?b then _ else _] => destruct b end; split; try reflexivity; rok.
Qed.
Lemma ok_save_void vm vr s (Q : st -> Prop) : rk = RVoid -> Q s -> ok (SaveReturnValue r vm vr) s Q.
Proof. intros E HQ. unfold SaveReturnValue. rewrite (ret_class_size _ _ Hcl), E. apply ok_nil, HQ. Qed.
Lemma ok_save vm vr s c (Q : st -> Prop) : rk <> RVoid -> pn rk = 0 -> I c s -> - 2 ^ 19 <= vr < 0 ->
  (I c (set_mm s (st8 (mm s) (B + vr) (resv s))) -> Q (set_mm s (st8 (mm s) (B + vr) (resv s)))) -> ok (SaveReturnValue r vm vr) s Q.
Proof.
  intros Hv Hp HI Hr K. pose proof Hn as N. unfold SaveReturnValue. rewrite (ret_class_size _ _ Hcl). destruct Hcl as (_ & _ & C). unfold resv in K. unfold by_ref in C.
  destruct rk as [|n|n|n]; [contradiction| | |].
  - destruct C as (_ & _ & [[Hb _]|(Hb & Ht & _)]); rewrite Hb.
    + eapply ok_store; [exact Hsp|exact HI|lia|reflexivity|reflexivity|]. intros HI1. apply ok_nil, K, HI1.
    + rewrite Ht. cbn [Z.eqb Pos.eqb PassType_Basic PassType_Float]. eapply ok_store; [exact Hsp|exact HI|lia|reflexivity|reflexivity|]. intros HI1. apply ok_nil, K, HI1.
  - destruct C as (_ & Hb & Ht & _). rewrite Hb, Ht, Z.eqb_refl. eapply ok_movsd_store; [exact Hsp|exact HI|lia|reflexivity|reflexivity|]. intros HI1. apply ok_nil, K, HI1.
  - unfold size_ok, pn in *. lia.
Qed.

Lemma s64_small x : 0 <= x < 2 ^ 32 -> s64 x = x.
Proof. intros H. unfold s64. destruct (Z.ltb_spec x (2 ^ 63)); lia. Qed.
Lemma ok_status s c a b (Q : st -> Prop) : I c s -> ld8 (mm s) (B - 40) = a -> ld8 (mm s) (B - 24) = b -> 0 <= a < 2 ^ 32 -> 0 <= b < 2 ^ 32 ->
  (forall s', I c s' -> mm s' = st8 (mm s) (B - 24) (Z.max b a) -> Q s') -> ok hk_status s Q.
Proof.
  intros HI Ea Eb Ra Rb K. basics. unfold hk_status. uv. go.
  eapply ok_any; [cbn [meaning mem rm_reg rm_disp exec1 rd64 ea alu]; sst; uregs; rewrite (i_bp _ _ _ _ _ HI), (wB _ Hsp) by lia; nrm; reflexivity|].
  destruct (cmp_lt (set_rg s RAX a) a b ltac:(lia) ltac:(lia)) as [F1 F2]. cbv zeta in F1, F2. rewrite !s64_small in * by assumption.
  set (f := flags _ _ _) in *. assert (HI1 : I c f) by (apply I_set_fl; assumption).
  assert (Em : mm f = mm s) by reflexivity. clearbody f. 
  eapply ok_load; [exact Hsp|exact HI1|reflexivity|lia|rewrite Em; nb; exact Eb|]. intros HI2.
  eapply ok_any; [cbn [meaning mem rm_reg rm_disp exec1 rd64 ea holds]; sst; uregs; rewrite (i_bp _ _ _ _ _ HI1), (wB _ Hsp) by lia; nb; rewrite Em, Ea, F1, F2; reflexivity|].
  assert (HI3 : I c (if negb (a =? b) && negb (a <? b) then set_rg (set_rg f RAX b) RAX a else set_rg f RAX b)).
  { destruct (_ && _); [|exact HI2]. apply I_set_rg; [exact HI2|reflexivity|lia]. }
  assert (Ev : rg (if negb (a =? b) && negb (a <? b) then set_rg (set_rg f RAX b) RAX a else set_rg f RAX b) RAX = Z.max b a).
  { destruct (Z.eqb_spec a b), (Z.ltb_spec a b); cbn [negb andb]; sst; rewrite ?upd_same; lia. }
  assert (Em3 : mm (if negb (a =? b) && negb (a <? b) then set_rg (set_rg f RAX b) RAX a else set_rg f RAX b) = mm s).
  { destruct (_ && _); sst; exact Em. }
  revert HI3 Ev Em3. generalize (if negb (a =? b) && negb (a <? b) then set_rg (set_rg f RAX b) RAX a else set_rg f RAX b). intros s3 HI3 Ev Em3.
  eapply ok_store; [exact Hsp|exact HI3|lia|exact Em3|exact Ev|]. intros HI4. apply ok_nil, K; [exact HI4|reflexivity].
Qed.


Lemma fs_nonvoid : rk <> RVoid -> fs = 80 + 4 * area rk. Proof. unfold fs_of. destruct rk; [contradiction| | |]; reflexivity. Qed.
Lemma own_ret x : rk <> RVoid -> (B - 72 <= x < B - 64 \/ (pn rk = 0 /\ B - 80 - 3 * area rk <= x < B - 80 - 3 * area rk + 8)) -> Own x /\ B - fs <= x.
Proof.
  intros Hv Hx. pose proof (fs_nonvoid Hv) as F. basics. split; [|lia]. apply ownsh. unfold sh.
  pose proof (slots_ge pks rk Hps Hn). lia.
Qed.
Lemma ld8_called c s t e s' a : Called c s t e s' -> 0 <= a -> a + 8 <= W64 -> (forall x, a <= x < a + 8 -> Own x /\ B - fs <= x) -> ld8 (mm s') a = ld8 (mm s) a.
Proof. intros C H1 H2 H. apply ld8_ext; [exact H1|exact H2|]. intros x Hx. destruct (H x Hx). apply (cl_own _ _ _ _ _ _ _ _ _ _ C); assumption. Qed.
Lemma agree_out s s1 c : (forall x, ~ (B - fs - c <= x < B - fs) -> mm s1 x = mm s x) -> fs + c <= depth pks rk -> Agree (mm s) (mm s1).
Proof. intros H Hc x Hx. apply H. intros C. apply Hx, ownbelow. lia. Qed.
Lemma kept_out s s1 c : (forall x, ~ (B - fs - c <= x < B - fs) -> mm s1 x = mm s x) -> Kept (mm s) (mm s1).
Proof. intros H x Hx. apply H. destruct (ownfixed x Hx). lia. Qed.
Notation before := (before_handler (the_vars rk B) false).
Notation after := (after_handler (the_vars rk B) false).
Notation plug := (B - 80 - 3 * area rk).
Notation cur_of := (cur (the_vars rk B)).

Lemma small24 : small_at (B - 24). Proof. left; reflexivity. Qed.
Lemma small32 : small_at (B - 32). Proof. right; left; reflexivity. Qed.
Lemma small40 : small_at (B - 40). Proof. right; right; reflexivity. Qed.
Lemma ld4_range m a : bytes_ok m -> 0 <= ld m a 4 < 2 ^ 32.
Proof. intros H. exact (ld_range m 4 H a). Qed.

Lemma R_reset pre s tr ctx mu it (Q : st -> list event -> Prop) : I 0 s -> J ctx (mm s) -> Agree mu (mm s) -> ld8 (mm s) (B - 48) = it ->
  (forall s', I 0 s' -> J ctx (mm s') -> Agree (before mu) (mm s') -> ld8 (mm s') (B - 48) = it -> Q s' tr) -> R pre hk_reset s tr Q.
Proof.
  intros HI HJ HA Ei K. basics. apply R_block; [unfold hk_reset; uv; rok|reflexivity|]. unfold hk_reset. uv. go.
  assert (Ez : ld8 (st8 (mm s) (B - 40) 0) (B - 40) = 0) by (apply ld8_st8_same; lia).
  go. go. go. nb. 
  assert (K1 : Kept (mm s) (st8 (mm s) (B - 40) 0)) by (eapply small_kept; [exact HJ|apply small40|lia]).
  assert (J1 := J_kept _ _ _ HJ K1).
  assert (K2 : Kept (st8 (mm s) (B - 40) 0) (st8 (st8 (mm s) (B - 40) 0) (B - 32) 0)) by (eapply small_kept; [exact J1|apply small32|lia]).
  apply K.
  - assumption.
  - sst. exact (J_kept _ _ _ J1 K2).
  - sst. unfold before_handler, set_prev. apply small_agree; [|apply small32|reflexivity]. apply small_agree; [exact HA|apply small40|reflexivity].
  - sst. rewrite !ld8_st8_diff by lia. exact Ei.
Qed.

Lemma R_handler pre s tr ctx mu it (Q : st -> list event -> Prop) : I 0 s -> J ctx (mm s) -> Agree mu (mm s) -> ld8 (mm s) (B - 48) = it ->
  (forall f s', Call (nargs pks rk) (before mu) f (virt it (x_call h) f) -> params pks rk s0 plug f -> I 0 s' -> J ctx (mm s') ->
     Agree (after (mm (e_out f))) (mm s') -> (rk <> RVoid -> pn rk = 0 -> ld8 (mm s') plug = result rk f) -> ld (mm s') (B - 40) 4 = cur_of (mm (e_out f)) -> Q s' (tr ++ [f])) ->
  R pre (hk_body k r ps) s tr Q.
Proof.
  intros HI HJ HA Ei K. basics. pose proof space_range as SR. pose proof space_mod as SM.
  assert (Ri : 0 <= it < W64) by (rewrite <- Ei; apply ld8_range, (I_bytes _ _ _ _ _ HI)). pose proof (w0 _ Ri) as E0.
  unfold hk_body. apply R_app. eapply R_reset; [exact HI|exact HJ|exact HA|exact Ei|]. clear s HI HJ HA Ei. intros s HI HJ HA Ei.
  apply R_app. destruct (push_aok v_iter (hk_ret r) ltac:(uv; lia) (proj1 ret_vals_range)) as [PA PB].
  apply R_block; [exact PA|exact PB|]. eapply ok_push; [exact HI|exact HJ|uv; lia|exact (proj1 ret_vals_range)|exact Ei|]. intros s1 HI1 Ec Ed HP Hm.
  rewrite push_space_eq.
  assert (Ei1 : ld8 (mm s1) (B - 48) = it). { rewrite <- Ei. apply ld8_ext; [lia|lia|]. intros x Hx. apply Hm. lia. }
  assert (HA1 : Agree (before mu) (mm s1)) by (eapply agree_trans; [exact HA|eapply agree_out; [exact Hm|lia]]).
  assert (HJ1 : J ctx (mm s1)) by (eapply J_kept; [exact HJ|eapply kept_out; exact Hm]).
  apply R_app. unfold hk_target. uv. apply R_block; [aok|reflexivity|]. go. go. go. go.
  change ([ACall RAX; ?b] ++ ?l) with ([ACall RAX] ++ [b] ++ l). apply R_app.
  eapply R_call; [split; [discriminate|reflexivity]|eassumption|lia|exact SM|lia|]. sst. uregs. intros f s2 C.
  assert (P1 : params pks rk s0 plug f).
  { eapply pass_params; [exact C|do 3 apply pass_rax; exact HP|]. intros Hp. sst. uregs. rewrite (Ed Hp). destruct (hk_ret_eq (mem_void Hp)); lia. }
  assert (C1 : Call (nargs pks rk) (before mu) f (virt it (x_call h) f)).
  { eapply call_of; [exact C|apply slots_room|exact HA1|]. split.
    - rewrite (cl_target _ _ _ _ _ _ _ _ _ _ C). sst. do 2 f_equal. cbn [iface_of x_call]. lia.
    - rewrite (cl_reg _ _ _ _ _ _ _ _ _ _ C) by lia. cbn [nth]. sst. uregs. exact Ec. }
  destruct (after_called _ _ _ _ _ ctx C HJ1) as (HJ2 & HA2 & HI2).
  pose proof (cl_rax _ _ _ _ _ _ _ _ _ _ C) as Er. pose proof (cl_xm _ _ _ _ _ _ _ _ _ _ C) as Ex.
  clear C. apply R_app. apply R_block; [rok|reflexivity|].
  eapply ok_add; [exact Hsp|exact HF|exact HI2|apply Z.sub_diag|lia|lia|lia|]. intros z n o HI3. apply ok_nil.
  set (s3 := set_rg _ RSP _) in *. assert (Em3 : mm s3 = mm s2) by reflexivity.
  assert (Ev3 : resv s3 = result rk f). { unfold resv, result. destruct rk; [reflexivity| | |reflexivity]; unfold s3; sst; uregs; [exact Er|rewrite Ex; reflexivity]. }
  clearbody s3. apply R_app.
  assert (G : forall s4, I 0 s4 -> J ctx (mm s4) -> Agree (mm (e_out f)) (mm s4) -> (rk <> RVoid -> pn rk = 0 -> ld8 (mm s4) plug = result rk f) -> forall pre', R pre' hk_status s4 (tr ++ [f]) Q).
  { intros s4 HI4 HJ4 HA4 HV4 pre'. apply R_block; [unfold hk_status; uv; rok|reflexivity|].
    pose proof (I_bytes _ _ _ _ _ HI4) as Hb.
    pose proof (ld4_range (mm s4) (B - 40) Hb) as Ra. pose proof (ld4_range (mm s4) (B - 24) Hb) as Rb.
    eapply ok_status; [exact HI4|apply (small_ld ctx); [exact HJ4|apply small40]|apply (small_ld ctx); [exact HJ4|apply small24]|exact Ra|exact Rb|].
    intros s5 HI5 Em5. apply K; [exact C1|exact P1|exact HI5| | | |].
    - rewrite Em5. eapply J_kept; [exact HJ4|]. eapply small_kept; [exact HJ4|apply small24|lia].
    - rewrite Em5. unfold after_handler. apply small_agree; [exact HA4|apply small24|]. unfold status, cur. cbn [the_vars a_status a_cur].
      rewrite !(small_agree_ld _ _ _ HA4) by (apply small24 || apply small40). reflexivity.
    - intros Hv Hp. rewrite Em5. rewrite ld8_st8_diff by lia. apply (HV4 Hv Hp).
    - rewrite Em5. unfold cur. cbn [the_vars a_cur]. rewrite <- (small_agree_ld _ _ _ HA4 small40).
      apply ld_ext; change (Z.of_nat 4) with 4; [lia|lia|]. intros x Hx. apply st8_out; lia. }
  destruct (rkind_eq_void rk) as [Hv|Hv].
  - apply R_block; [unfold SaveReturnValue; rewrite (ret_class_size _ _ Hcl), Hv; constructor|unfold SaveReturnValue; rewrite (ret_class_size _ _ Hcl), Hv; reflexivity|].
    apply ok_save_void; [exact Hv|]. apply G; [exact HI3|rewrite Em3; exact HJ2|rewrite Em3; exact HA2|contradiction].
  - destruct (Z.ltb_spec 0 (pn rk)) as [Hp|Hp].
    { rewrite (save_mem _ _ Hp). apply R_nil. apply G; [exact HI3|rewrite Em3; exact HJ2|rewrite Em3; exact HA2|lia]. }
    assert (Hp0 : pn rk = 0) by lia.
    destruct (vars_nonvoid _ _ Hcl Hv) as (_ & _ & _ & Vp). destruct (save_aok (v_mem_ret r) (v_plugin_ret r)) as [SA SB]; [rewrite Vp; lia|exact Hp0|].
    apply R_block; [exact SA|exact SB|]. rewrite Vp.
    eapply ok_save; [exact Hv|exact Hp0|exact HI3|lia|]. replace (B + (-80 - 3 * area rk)) with plug by lia. intros HI4. rewrite Em3 in *. apply G; sst.
    + exact HI4.
    + eapply J_kept; [exact HJ2|]. apply kept_st8; [lia|lia|]. intros x Hx C. unfold fixed in C. lia.
    + eapply agree_trans; [exact HA2|]. apply agree_own; [lia|lia|]. intros x Hx. apply own_ret; [exact Hv|lia].
    + intros _ _. rewrite Ev3. apply ld8_st8_same; [lia|lia|]. rewrite <- Ev3. unfold resv. destruct rk; [lia| | |lia]; apply HI3.
Qed.


(** ** Copies of the return value *)
Lemma ex_push q s sp : rg s RSP = sp -> 8 <= sp < W64 -> exec1 (meaning (APush q)) s = Some (set_rg (set_mm s (st8 (mm s) (sp - 8) (rg s q))) RSP (sp - 8)).
Proof. intros E H. cbn [meaning exec1]. unfold push. rewrite E, w64_small by lia. reflexivity. Qed.
Lemma ex_pop q s sp : rg s RSP = sp -> 0 <= sp < W64 - 8 -> exec1 (meaning (APop q)) s = Some (set_rg (set_rg s RSP (sp + 8)) q (ld8 (mm s) sp)).
Proof. intros E H. cbn [meaning exec1]. cbv zeta. rewrite E, w64_small by lia. reflexivity. Qed.
Lemma ok_copy_ret s di si d a n : I 0 s -> uint64_ok (pi_size r) -> pi_size r = Z.of_nat n -> Z.of_nat n <= 2 ^ 20 ->
  (forall s', rg s' RBP = B -> rg s' RAX = rg s RAX -> (forall x, B - fs <= x -> mm s' x = mm s x) -> exec1 (meaning di) s' = Some (set_rg s' RDI d)) ->
  (forall s', rg s' RBP = B -> rg s' R8 = rg s R8 -> exec1 (meaning si) s' = Some (set_rg s' RSI a)) ->
  0 <= d -> d + Z.of_nat n <= W64 -> 0 <= a -> a + Z.of_nat n <= W64 -> (a + Z.of_nat n <= d \/ d + Z.of_nat n <= a) ->
  (d + Z.of_nat n <= B - fs - 24 \/ B - fs <= d) -> (a + Z.of_nat n <= B - fs - 24 \/ B - fs <= a) ->
  ok (copy_ret r [di] [si]) s (fun s' => I 0 s' /\ forall x, ~ (B - fs - 24 <= x < B - fs) -> mm s' x = sto (mm s) d n (ld (mm s) a n) x).
Proof.
  intros HI Hu Hs Hn2 Hdi Hsi D1 D2 A1 A2 DA DS AS. basics. unfold copy_ret. cbn [app].
  pose proof (i_sp _ _ _ _ _ HI) as Esp. pose proof (i_bp _ _ _ _ _ HI) as Ebp. pose proof (i_wf _ _ _ _ _ HI) as Wf. pose proof (I_bytes _ _ _ _ _ HI) as Hb.
  pose proof (i_sv _ _ _ _ _ HI) as Sv.
  assert (Rdi : 0 <= rg s RDI < W64) by apply Wf. assert (Rsi : 0 <= rg s RSI < W64) by apply Wf. assert (Rcx : 0 <= rg s RCX < W64) by apply Wf.
  eapply ok_any; [apply ex_push; [exact Esp|lia]|]. replace (B - fs - 0 - 8) with (B - fs - 8) by lia.
  eapply ok_any; [apply ex_push; [sst; uregs; reflexivity|lia]|]. sst. uregs. replace (B - fs - 8 - 8) with (B - fs - 16) by lia.
  eapply ok_any; [apply ex_push; [sst; uregs; reflexivity|lia]|]. sst. uregs. replace (B - fs - 16 - 8) with (B - fs - 24) by lia.
  eapply ok_any; [apply ex_movru; exact Hu|].
  eapply ok_any; [apply Hdi; sst; uregs; [exact Ebp|reflexivity|intros x Hx; rewrite !st8_out by lia; reflexivity]|].
  eapply ok_any; [apply Hsi; sst; uregs; [exact Ebp|reflexivity]|].
  eapply ok_any; [cbn [meaning exec1]; cbv zeta; sst; uregs; rewrite Hs, Nat2Z.id; reflexivity|].
  set (m1 := st8 (st8 (st8 (mm s) (B - fs - 8) (rg s RDI)) (B - fs - 16) (rg s RSI)) (B - fs - 24) (rg s RCX)).
  assert (B1 : bytes_ok m1) by (unfold m1; do 3 apply st8_bytes; exact Hb).
  set (m2 := movsb n m1 d a).
  assert (B2 : bytes_ok m2) by (apply movsb_bytes; exact B1).
  assert (Out : forall x, B - fs - 24 <= x < B - fs -> m2 x = m1 x) by (intros x Hx; apply movsb_out; lia).
  assert (L1 : ld8 m2 (B - fs - 24) = rg s RCX).
  { rewrite (ld8_ext m2 m1) by (lia || (intros x Hx; apply Out; lia)). unfold m1. apply ld8_st8_same; lia. }
  assert (L2 : ld8 m2 (B - fs - 16) = rg s RSI).
  { rewrite (ld8_ext m2 m1) by (lia || (intros x Hx; apply Out; lia)). unfold m1. rewrite ld8_st8_diff by lia. apply ld8_st8_same; lia. }
  assert (L3 : ld8 m2 (B - fs - 8) = rg s RDI).
  { rewrite (ld8_ext m2 m1) by (lia || (intros x Hx; apply Out; lia)). unfold m1. rewrite !ld8_st8_diff by lia. apply ld8_st8_same; lia. }
  eapply ok_any; [apply (ex_pop _ _ (B - fs - 24)); [sst; uregs; reflexivity|lia]|]. sst. rewrite L1.
  eapply ok_any; [apply (ex_pop _ _ (B - fs - 16)); [sst; uregs; lia|lia]|]. sst. rewrite L2.
  eapply ok_any; [apply (ex_pop _ _ (B - fs - 8)); [sst; uregs; lia|lia]|]. sst. rewrite L3.
  apply ok_nil. split.
  - constructor; sst.
    + uregs. lia.
    + uregs. exact Ebp.
    + intros q Hq. pose proof (Sv q Hq) as Eq. cbn [In] in Hq.
      destruct Hq as [<-|[<-|[<-|[<-|[<-|[<-|[<-|[]]]]]]]]; uregs; exact Eq.
    + split; [|split]; sst; [|apply Wf|exact B2].
      intros q. unfold upd. repeat match goal with |- context [?u =? ?v] => destruct (u =? v) end; try apply Wf; try apply w64_range; try assumption; lia.
  - intros x Hx. sst. unfold m2. rewrite movsb_sto by assumption.
    assert (Ea : ld m1 a n = ld (mm s) a n). { apply ld_ext; [lia|lia|]. intros y Hy. unfold m1. rewrite !st8_out by lia. reflexivity. }
    rewrite Ea. destruct (Z_lt_dec x d) as [L|L]; [rewrite !sto_out by lia; unfold m1; rewrite !st8_out by lia; reflexivity|].
    destruct (Z_lt_dec x (d + Z.of_nat n)) as [L'|L']; [rewrite !sto_in by lia; reflexivity|].
    rewrite !sto_out by lia; unfold m1; rewrite !st8_out by lia; reflexivity.
Qed.


(** ** The override value *)
Lemma R_cmp pre s tr ctx a (Q : st -> list event -> Prop) : I 0 s -> J ctx (mm s) -> ld (mm s) (B - 40) 4 = a ->
  (forall s', I 0 s' -> mm s' = mm s -> holds s' CL = (a <? 2) -> Q s' tr) -> R pre hk_cmp s tr Q.
Proof.
  intros HI HJ Ea K. basics. unfold hk_cmp. uv. apply R_block; [rok|reflexivity|].
  assert (Ea8 : ld8 (mm s) (B - 40) = a) by (rewrite <- Ea; apply (small_ld ctx); [exact HJ|apply small40]).
  assert (Ra : 0 <= a < 2 ^ 32) by (rewrite <- Ea; apply ld4_range, (I_bytes _ _ _ _ _ HI)).
  go. eapply ok_any; [cbn [meaning mem rm_reg rm_disp exec1 rd64 ea alu]; sst; uregs; rewrite (i_bp _ _ _ _ _ HI), (wB _ Hsp) by lia; nrm; reflexivity|].
  destruct (cmp_lt (set_rg s RAX 2) a 2 ltac:(lia) ltac:(lia)) as [F1 _]. cbv zeta in F1. rewrite !s64_small in F1 by lia.
  apply ok_nil. apply K; [apply I_set_fl; assumption|reflexivity|cbn [holds]; rewrite s64_small by lia; exact F1].
Qed.
Lemma R_over pre s tr ctx mu v (Q : st -> list event -> Prop) : rk <> RVoid -> I 0 s -> J ctx (mm s) -> Agree mu (mm s) -> (pn rk = 0 -> ld8 (mm s) plug = v) ->
  (forall g s', Call 1 mu g (virt ctx (x_over h) g) -> I 0 s' -> J ctx (mm s') -> Agree (mm (e_out g)) (mm s') -> (pn rk = 0 -> ld8 (mm s') plug = v) -> rg s' RAX = rax g -> Q s' (tr ++ [g])) ->
  R pre (hk_over k) s tr Q.
Proof.
  intros Hv HI HJ HA Ev K. pose proof (ctx_range _ _ _ HI HJ) as HC. basics.
  pose proof (j_ctx _ _ HJ) as Ec. pose proof (w0 _ HC) as E0.
  unfold hk_over, ctx_fun. uv. cbn [app].
  change (?a :: ?b :: ?c :: ?d :: ?e :: ?f :: ?l) with ([a; b; c; d; e] ++ [f] ++ l). apply R_app, R_block; [aok|reflexivity|].
  go. go. go. go. go. go. apply R_app. eapply R_call; [split; [discriminate|reflexivity]|eassumption|lia|reflexivity|lia|].
  sst. uregs. intros e s' C. destruct (after_called _ _ _ _ _ ctx C HJ) as (HJ' & HA' & HI').
  apply R_block; [rok|reflexivity|]. pose proof (cl_rax _ _ _ _ _ _ _ _ _ _ C) as Er.
  go. go. apply K.
  - eapply virt_called; [exact C|lia|reflexivity|exact HA|reflexivity].
  - assumption.
  - exact HJ'.
  - exact HA'.
  - intros Hp. sst. rewrite <- (Ev Hp). apply (ld8_called _ _ _ _ _ _ C); [lia|lia|]. intros x Hx. apply own_ret; [exact Hv|lia].
  - sst. uregs. exact Er.
Qed.
Lemma sto_mod m a n v v' x : 0 <= a -> a + Z.of_nat n <= W64 -> (forall j, 0 <= j < Z.of_nat n -> (v / 256 ^ j) mod 256 = (v' / 256 ^ j) mod 256) -> sto m a n v x = sto m a n v' x.
Proof.
  intros H1 H2 H. destruct (Z_lt_dec x a) as [L|L]; [rewrite !sto_out by lia; reflexivity|].
  destruct (Z_lt_dec x (a + Z.of_nat n)) as [L'|L']; [rewrite !sto_in by lia; apply H; lia|rewrite !sto_out by lia; reflexivity].
Qed.
Lemma ld_low m a n v : bytes_ok m -> 0 <= a -> a + 8 <= W64 -> (n <= 8)%nat -> ld8 m a = v -> forall j, 0 <= j < Z.of_nat n -> (ld m a n / 256 ^ j) mod 256 = (v / 256 ^ j) mod 256.
Proof.
  intros Hb H1 H2 Hn2 Hv j Hj. rewrite (ld_byte n m a j) by (assumption || lia). rewrite <- Hv. unfold ld8. rewrite (ld_byte 8 m a j) by (assumption || (change (Z.of_nat 8) with 8; lia)). reflexivity.
Qed.
Lemma agree_sto_any mu m m' p v : Agree mu m -> 0 <= p -> place pks rk s0 (the_vars rk B) p -> (forall x, ~ Own x -> m' x = sto m p (rsize rk) v x) -> Agree (sto mu p (rsize rk) v) m'.
Proof.
  intros HA Hp (P1 & P2 & _) H x Hx. rewrite H by exact Hx. destruct (Z_lt_dec x p) as [L|L]; [rewrite !sto_out by lia; apply HA, Hx|].
  destruct (Z_lt_dec x (p + Z.of_nat (rsize rk))) as [L'|L']; [rewrite !sto_in by lia; reflexivity|rewrite !sto_out by lia; apply HA, Hx].
Qed.
Lemma ret_cases : rk <> RVoid -> uint64_ok (pi_size r) /\ ((has (pi_flags r) PassFlag_ByRef = true /\ rsize rk = 8%nat /\ pn rk = 0) \/
  (has (pi_flags r) PassFlag_ByRef = false /\ pi_assign r = 0 /\ pi_size r = Z.of_nat (rsize rk) /\ 1 <= Z.of_nat (rsize rk) <= 2 ^ 16)).
Proof.
  intros Hv. destruct Hcl as (_ & Hu & C). split; [exact Hu|]. unfold by_ref in C. destruct rk as [|n|n|n]; [contradiction| | |]; cbn [rsize pn].
  - destruct C as (_ & _ & [[C1 C2]|(C1 & _ & C2 & C3 & C4)]); [auto|right]. split; [exact C1|]. split; [exact C2|]. split; [exact C3|lia].
  - destruct C as (_ & C1 & _ & C2 & C3 & C4). right. split; [exact C1|]. split; [exact C2|]. split; [exact C3|lia].
  - destruct C as (_ & C1 & _ & _ & _ & C2 & _ & C3 & C4). right. split; [exact C1|]. split; [exact C2|]. split; [exact C3|exact C4].
Qed.
Lemma assign_aok : rk <> RVoid -> Forall asm_ok (assign_override r) /\ forallb straight (assign_override r) = true.
Proof.
  intros Hv. destruct (vars_nonvoid _ _ Hcl Hv) as (_ & _ & _ & Vp). unfold assign_override, copy_ret. rewrite Vp. pose proof Hfacts as (F & _).
  destruct (ret_cases Hv) as (Hu & [[Ha _]|(Ha & Hz & _)]); rewrite Ha; [split; [clear Hcl; rok|reflexivity]|]. rewrite Hz. cbn [Z.eqb negb app]. split; [|reflexivity]. clear Hcl. rok.
Qed.
(** the value that is assigned: of a result in memory what [plugin_ret] holds then *)
Definition value (m : Z -> Z) (v : Z) : Z := match rk with RMem n => ld m plug n | _ => v end.
Lemma value_reg m v : pn rk = 0 -> value m v = v.
Proof. pose proof Hn as N. unfold value, pn, size_ok in *. destruct rk; try reflexivity. lia. Qed.
Lemma value_mem m v : 0 < pn rk -> value m v = ld m plug (rsize rk).
Proof. unfold value, pn. destruct rk; try discriminate. reflexivity. Qed.
Lemma place_apart p : place pks rk s0 (the_vars rk B) p -> 0 < pn rk -> p + Z.of_nat (rsize rk) <= plug \/ plug + Z.of_nat (rsize rk) <= p.
Proof. intros (_ & _ & H). unfold pn. destruct rk; try discriminate. intros _. exact H. Qed.
Lemma ok_assign s ctx mu p v (Q : st -> Prop) : rk <> RVoid -> I 0 s -> J ctx (mm s) -> Agree mu (mm s) -> rg s RAX = p -> (pn rk = 0 -> ld8 (mm s) plug = v) ->
  place pks rk s0 (the_vars rk B) p ->
  (forall s', I 0 s' -> J ctx (mm s') -> Agree (sto mu p (rsize rk) (value mu v)) (mm s') -> Q s') -> ok (assign_override r) s Q.
Proof.
  intros Hv HI HJ HA Ep Ev P K. pose proof P as (P1 & P2 & _). basics. pose proof (fs_nonvoid Hv) as F.
  assert (Rp : 0 <= p) by (rewrite <- Ep; apply HI).
  assert (Dis : forall x, p <= x < p + Z.of_nat (rsize rk) -> ~ Own x) by exact P2.
  destruct (vars_nonvoid _ _ Hcl Hv) as (_ & _ & _ & Vp). unfold assign_override. rewrite Vp.
  assert (KJ : forall m' w, (forall x, Fixed x -> m' x = sto (mm s) p (rsize rk) w x) -> J ctx m').
  { intros m' w H. eapply J_kept; [exact HJ|]. intros x Hx. rewrite H by exact Hx. apply sto_out; [lia|exact P1|]. intros C. apply (Dis x C), ownfixed, Hx. }
  assert (Basic : has (pi_flags r) PassFlag_ByRef = false -> pi_assign r = 0 -> pi_size r = Z.of_nat (rsize rk) -> 1 <= Z.of_nat (rsize rk) <= 2 ^ 16 -> uint64_ok (pi_size r) ->
    ok (if has (pi_flags r) PassFlag_ByRef then [AMovRM R8 (Rm RBP (-80 - 3 * area rk)); AMovMR (Rm RAX 0) R8] else if negb (pi_assign r =? 0) then call_at [AMovRR RCX RAX; ALea RDX (Rm RBP (-80 - 3 * area rk))] (pi_assign r)
        else copy_ret r [AMovRR RDI RAX] [ALea RSI (Rm RBP (-80 - 3 * area rk))]) s Q).
  { intros Hb Hz Hs Hr Hu. rewrite Hb, Hz. cbn [Z.eqb negb].
    assert (D1 : p + Z.of_nat (rsize rk) <= plug \/ plug + Z.of_nat (rsize rk) <= p).
    { destruct (Z_lt_dec 0 (pn rk)) as [Hp|Hp]; [apply place_apart; assumption|].
      destruct (Z_le_dec (p + Z.of_nat (rsize rk)) plug) as [L|L]; [auto|]. destruct (Z_le_dec (plug + Z.of_nat (rsize rk)) p) as [L2|L2]; [auto|]. exfalso.
      apply (Dis (Z.max p plug)); [lia|]. apply own_ret; [exact Hv|lia]. }
    assert (D2 : p + Z.of_nat (rsize rk) <= B - fs - 24 \/ B - fs <= p).
    { destruct (Z_le_dec (p + Z.of_nat (rsize rk)) (B - fs - 24)) as [L|L]; [auto|]. destruct (Z_le_dec (B - fs) p) as [L2|L2]; [auto|]. exfalso.
      apply (Dis (Z.max p (B - fs - 24))); [lia|]. apply ownbelow. lia. }
    destruct (ok_copy_ret s (AMovRR RDI RAX) (ALea RSI (Rm RBP (-80 - 3 * area rk))) p plug (rsize rk) HI Hu Hs ltac:(lia)) as (s' & E & HI' & Hm).
    - intros s' _ E _. cbn [meaning exec1 rd64 wr64]. rewrite E, Ep. reflexivity.
    - intros s' E _. cbn [meaning mem rm_reg rm_disp exec1 ea]. rewrite E, (wB _ Hsp) by lia. do 2 f_equal. lia.
    - exact Rp.
    - exact P1.
    - lia.
    - lia.
    - lia.
    - exact D2.
    - lia.
    - assert (Em : forall x, ~ (B - fs - 24 <= x < B - fs) -> mm s' x = sto (mm s) p (rsize rk) (value mu v) x).
      { intros x Hx. rewrite Hm by exact Hx. destruct (Z_lt_dec 0 (pn rk)) as [Hp|Hp].
        - rewrite (value_mem _ _ Hp). rewrite (agree_ld (rsize rk) mu (mm s) plug HA); [reflexivity|lia|lia|]. intros y Hy. apply shared_not_own. unfold sh. lia.
        - rewrite value_reg by lia. apply sto_mod; [lia|exact P1|]. apply ld_low; [apply (I_bytes _ _ _ _ _ HI)|lia|lia|lia|apply Ev; lia]. }
      exists s'. split; [exact E|]. apply K; [exact HI'| |].
      + eapply KJ. intros x Hx. apply Em. destruct (ownfixed x Hx). lia.
      + eapply agree_sto_any; [exact HA|exact Rp|exact P|]. intros x Hx. apply Em. intros C. apply Hx, ownbelow. lia. }
  destruct (ret_cases Hv) as (Hu & [(Hb & Hn8 & Hp0)|(Hb & Hz & Hs & Hr)]); [|apply Basic; assumption].
  clear Basic. rewrite Hb. rewrite (value_reg _ _ Hp0) in K. specialize (Ev Hp0). replace plug with (B + (-80 - 3 * area rk)) in Ev by lia. go. rewrite Hn8 in *. change (Z.of_nat 8) with 8 in *.
  assert (E0 : w64 (p + 0) = p) by (apply w0; lia). go. go. apply K; sst.
  - assumption.
  - eapply KJ. intros x Hx. reflexivity.
  - rewrite <- Hn8. eapply agree_sto_any; [exact HA|exact Rp|exact P|]. intros x Hx. rewrite Hn8. reflexivity.
Qed.

End Blocks.

