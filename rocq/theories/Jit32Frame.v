(** The hook function's frame: where its variables are, which bytes it owns, and what a call does. *)
From Coq Require Import List ZArith Bool Lia.
From Verif Require Import TrampModel ProtoModel GenModel Asm32Model Asm32Spec Asm32Proofs Mach32 Mach32Proofs
  Jit32Model Jit32Spec Jit32Steps Jit32Base Jit32PubProofs Jit32HookSpec Jit32HookList Jit32Arith.
Import ListNotations.
Local Open Scope Z_scope.
Notation length := List.length.

(** ** Which types are handled *)
(** the result: none, a number, reference or object in eax (and edx), a floating point number, or an object without functions
    of its own that is returned in memory *)
Definition ret_class (r : passinfo) (rk : rkind) : Prop :=
  has (pi_flags r) PassFlag_RetMem = in_mem rk /\
  (has (pi_flags r) PassFlag_ByVal = false \/ pi_normal r = 0 /\ pi_dtor r = 0) /\
  match rk with
  | RVoid => pi_size r = 0 /\ pi_assign r = 0 /\ has (pi_flags r) (Z.lor PassFlag_ByRef PassFlag_ForcedByRef) = false /\
             has (pi_flags r) PassFlag_ByRef = false
  | RInt n =>
      has (pi_flags r) PassFlag_ByRef = true /\ has (pi_flags r) (Z.lor PassFlag_ByRef PassFlag_ForcedByRef) = true /\ n = 4%nat /\ pi_size r <> 0 \/
      has (pi_flags r) PassFlag_ByRef = false /\ has (pi_flags r) (Z.lor PassFlag_ByRef PassFlag_ForcedByRef) = false /\
      (pi_type r = PassType_Basic \/ pi_type r = PassType_Object /\ has (pi_flags r) PassFlag_RetReg = true) /\
      pi_assign r = 0 /\ pi_size r = Z.of_nat n /\ (n = 1 \/ n = 2 \/ n = 4 \/ n = 8)%nat
  | RFloat n =>
      has (pi_flags r) PassFlag_ByRef = false /\ has (pi_flags r) (Z.lor PassFlag_ByRef PassFlag_ForcedByRef) = false /\
      pi_type r = PassType_Float /\ pi_assign r = 0 /\ pi_size r = Z.of_nat n /\ (n = 4 \/ n = 8)%nat
  | RMem n =>
      has (pi_flags r) PassFlag_ByRef = false /\ has (pi_flags r) (Z.lor PassFlag_ByRef PassFlag_ForcedByRef) = false /\
      pi_type r = PassType_Object /\ has (pi_flags r) PassFlag_RetReg = false /\
      has (pi_flags r) (Z.lor PassFlag_ODtor PassFlag_AssignOp) = false /\ pi_assign r = 0 /\ pi_copy r = 0 /\
      pi_size r = Z.of_nat n /\ 1 <= Z.of_nat n <= 4096
  end.
(** a parameter: a reference, a number, a floating point number, or an object that is copied bytewise *)
Definition param_class (p : passinfo) (k : pkind) : Prop :=
  ForcedByRef p = false /\
  (has (pi_flags p) PassFlag_ByVal = false /\ has (pi_flags p) PassFlag_ByRef = true /\
     has (pi_flags p) (Z.lor PassFlag_ByRef PassFlag_ForcedByRef) = true /\ k = PKind false 4 None \/
   has (pi_flags p) PassFlag_ByVal = true /\ has (pi_flags p) PassFlag_ByRef = false /\
     has (pi_flags p) (Z.lor PassFlag_ByRef PassFlag_ForcedByRef) = false /\ pi_size p = Z.of_nat (pk_size k) /\
     (pi_type p = PassType_Basic /\ pk_float k = false /\ pk_dtor k = None /\ (pk_size k = 1 \/ pk_size k = 2 \/ pk_size k = 4 \/ pk_size k = 8)%nat \/
      pi_type p = PassType_Float /\ pk_float k = true /\ pk_dtor k = None /\ (pk_size k = 4 \/ pk_size k = 8)%nat \/
      pi_type p = PassType_Object /\ pk_float k = false /\ pi_copy p = 0 /\ (1 <= pk_size k)%nat /\
        (if has (pi_flags p) PassFlag_ODtor then pk_dtor k = Some (pi_dtor p) /\ int32_ok (pi_dtor p) else pk_dtor k = None))).

Lemma slot_pos k : 0 <= slot k.
Proof. unfold slot. pose proof (Z.div_pos (Z.of_nat (pk_size k) + 3) 4). lia. Qed.
Lemma slot_ge k : Z.of_nat (pk_size k) <= slot k < Z.of_nat (pk_size k) + 4 /\ slot k mod 4 = 0.
Proof.
  unfold slot. split; [|rewrite Z.mul_comm; apply Z.mod_mul; lia].
  pose proof (Z_div_mod_eq_full (Z.of_nat (pk_size k) + 3) 4). pose proof (Z.mod_pos_bound (Z.of_nat (pk_size k) + 3) 4). lia.
Qed.
Lemma total_pos l : 0 <= total l.
Proof. induction l as [|p l IH]; cbn [total fold_right]; [lia|]. fold (total l). pose proof (slot_pos p). lia. Qed.
Lemma total_cons p l : total (p :: l) = slot p + total l.
Proof. reflexivity. Qed.
Lemma total_mod l : total l mod 4 = 0.
Proof.
  induction l as [|p l IH]; [reflexivity|]. rewrite total_cons, Z.add_mod, IH by lia. destruct (slot_ge p) as [_ ->]. reflexivity.
Qed.
Lemma class_size p k : param_class p k -> GetParamStackSize p = slot k /\ 4 <= slot k.
Proof.
  intros (_ & [(_ & _ & E & ->)|(_ & _ & E & Es & C)]); unfold GetParamStackSize, GetRealSize; rewrite E.
  - split; [reflexivity|]. cbv. discriminate.
  - rewrite align4_eq by lia. rewrite Es. split; [reflexivity|]. assert (1 <= pk_size k)%nat by (destruct C as [C|[C|C]]; lia).
    pose proof (slot_ge k) as [H1 H2]. assert (slot k <> 0 /\ slot k <> 1 /\ slot k <> 2 /\ slot k <> 3) as H3.
    { repeat split; intros X; try (rewrite X in H2; discriminate H2); rewrite X in H1; lia. } lia.
Qed.
Lemma total_size ps pks : Forall2 param_class ps pks -> 4 * Z.of_nat (length ps) <= total pks.
Proof.
  induction 1 as [|p k ps pks H _ IH]; [cbn; lia|]. rewrite total_cons. destruct (class_size p k H) as [_ H4]. cbn [length]. lia.
Qed.
Lemma fold_total ps pks : Forall2 param_class ps pks -> forall acc, 0 <= acc -> acc + total pks < 2 ^ 15 ->
  fold_left (fun acc p => s16 (acc + GetParamStackSize p)) ps acc = acc + total pks.
Proof.
  induction 1 as [|p k ps pks H _ IH]; intros acc H0 H1; [cbn; lia|]. rewrite total_cons in *. cbn [fold_left].
  destruct (class_size p k H) as [E H4]. rewrite E. pose proof (total_pos pks). rewrite s16_small by lia. rewrite IH by lia. lia.
Qed.
Lemma total_stack ps pks : Forall2 param_class ps pks -> total pks < 2 ^ 15 -> GetParamsTotalStackSize ps = total pks.
Proof. intros H K. exact (fold_total ps pks H 0 ltac:(lia) ltac:(lia)). Qed.
Lemma fbrr_zero ps pks : Forall2 param_class ps pks -> fbrr_size ps = 0.
Proof.
  intros H. unfold fbrr_size. generalize 0. induction H as [|p k ps pks (E & _) _ IH]; intros acc; [reflexivity|].
  cbn [fold_left]. rewrite E. apply IH.
Qed.

Lemma dec_all (P : Z -> Prop) lo (n : nat) : (forall x, P x \/ ~ P x) -> (forall x, lo <= x < lo + Z.of_nat n -> P x) \/ ~ (forall x, lo <= x < lo + Z.of_nat n -> P x).
Proof.
  intros D. induction n as [|n [IH|IH]]; [left; intros x Hx; lia| |right; intros K; apply IH; intros x Hx; apply K; lia].
  destruct (D (lo + Z.of_nat n)) as [Y|N]; [left; intros x Hx; destruct (Z.eq_dec x (lo + Z.of_nat n)) as [-> |Ne]; [exact Y|apply IH; lia]|].
  right. intros K. apply N, K. lia.
Qed.

Ltac modlia := Z.div_mod_to_equations; lia.
Lemma align_spec n (t mr : bool) : 0 <= n < 2 ^ 16 -> let a := align_bytes n t mr 0 in
  0 <= a < 16 /\ (a + n + (if t then 4 else 0) + (if mr then 4 else 0)) mod 16 = 0.
Proof.
  intros H. unfold align_bytes. cbv zeta. assert (B : 0 <= (if t then 4 else 0) + (if mr then 4 else 0) <= 8) by (destruct t, mr; lia).
  rewrite <- !Z.add_assoc.
  generalize dependent ((if t then 4 else 0) + (if mr then 4 else 0)). intros w B. rewrite Z.rem_mod_nonneg by lia. rewrite Z.add_assoc.
  pose proof (Z.mod_pos_bound (n + w) 16 ltac:(lia)) as M.
  destruct (Z.eqb_spec (16 - (n + w) mod 16) 16) as [E|E].
  - change (0 - 0 <? 0) with false. cbv iota. split; [lia|]. replace (0 - 0 + n + w) with (n + w) by lia. lia.
  - rewrite Z.sub_0_r. destruct (Z.ltb_spec (16 - (n + w) mod 16) 0); [lia|]. split; [lia|].
    replace (16 - (n + w) mod 16 + n + w) with ((n + w - (n + w) mod 16) + 1 * 16) by lia. rewrite Z.mod_add by lia.
    rewrite Zminus_mod, Z.mod_mod, Z.sub_diag by lia. reflexivity.
Qed.

(** ** The setting *)
Section Frame.
Variables (u : fpu) (base : Z) (env : nat -> Z -> st -> st).
Variables (gcc : bool) (conv : Z) (k : consts) (r : passinfo) (ps : list passinfo).
Variables (vf : bool) (rk : rkind) (pks : list pkind) (s0 : st) (PL : list asm).
Notation S0 := (rg s0 ESP).
Notation B := (S0 - 8).
Notation T := (total pks).
Notation N := (Z.of_nat (rsize rk)).
Notation d := (if gcc || vf then 0 else -4).
Notation RS := (GetParamStackSize r).
Definition cls : Prop :=
  HasVarArgs conv = vf /\ HasVafmt conv = vf /\ ret_class r rk /\ Forall2 param_class ps pks /\ T < 2 ^ 15 - 8.
Definition entry : Prop :=
  wf s0 /\ fp s0 = [] /\ 2 ^ 16 <= S0 <= W32 - 2 ^ 17 /\ forall n t s, wf s -> wf (env n t s).
Hypothesis Hc : cls.
Hypothesis He : entry.
Definition bot : Z := B + frame5 gcc conv r ps.
Definition E : Z := bot - bot mod 16.
Definition the_vars : vars :=
  Vars (B + v_vfnptr_origentry gcc conv) (B + v_status gcc conv) (B + v_prev_res gcc conv) (B + v_cur_res gcc conv)
       (B + v_orig_ret gcc conv r) (B + v_override_ret gcc conv r) (B + v_va_buf gcc conv r ps)
       (B + v_plugin_ret gcc conv r).
Definition the_iface : iface := Iface (k_sh k) (k_setup k) (k_end k) (k_phi k) (k_offs k) (k_idx k) (k_vsn k) (k_fmt k).
Notation own := (own gcc vf pks rk s0 the_vars).
Notation agree := (agree gcc vf pks rk s0 the_vars).
Notation depth := (depth pks rk).
Notation hid := (if in_mem rk then 4 else 0).

(** *** Numbers *)
Lemma frame0_is : frame0 gcc conv = d.
Proof. unfold frame0. rewrite (proj1 Hc). reflexivity. Qed.
Lemma vars_are : v_vfnptr_origentry gcc conv = d - 4 /\ v_status gcc conv = d - 8 /\ v_prev_res gcc conv = d - 12 /\ v_cur_res gcc conv = d - 16 /\
  v_pContext gcc conv = d - 24.
Proof. unfold v_vfnptr_origentry, v_status, v_prev_res, v_cur_res, v_pContext. rewrite frame0_is. auto. Qed.
Lemma ret_size : match rk with
  | RVoid => pi_size r = 0 /\ RS = 0 | RMem _ => pi_size r <> 0 /\ N <= 4096 /\ 1 <= N <= RS /\ RS - N < 4
  | _ => pi_size r <> 0 /\ (RS = 4 \/ RS = 8) /\ 1 <= N <= RS /\ RS - N < 4 end.
Proof.
  destruct Hc as (_ & _ & (_ & _ & C) & _). unfold GetParamStackSize, GetRealSize. destruct rk as [|n|n|n]; cbn [rsize].
  - destruct C as (E1 & _ & E2 & _). rewrite E2, E1. split; reflexivity.
  - destruct C as [(E1 & E2 & -> & E3)|(E1 & E2 & _ & _ & E3 & C)]; rewrite E2.
    + split; [exact E3|]. split; [left; reflexivity|]. unfold SIZE_PTR, AlignSize. cbn. lia.
    + rewrite E3. destruct C as [-> |[-> |[-> | -> ]]]; cbn; (split; [lia|]); (split; [auto|]); lia.
  - destruct C as (E1 & E2 & _ & _ & E3 & C). rewrite E2, E3. destruct C as [-> | -> ]; cbn; (split; [lia|]); (split; [auto|]); lia.
  - destruct C as (E1 & E2 & _ & _ & _ & _ & _ & E3 & C). rewrite E2, E3, align4_eq by lia. pose proof (Z.mod_pos_bound (Z.of_nat n + 3) 4 ltac:(lia)).
    pose proof (Z_div_mod_eq_full (Z.of_nat n + 3) 4). lia.
Qed.
Lemma ret_facts : 0 <= N <= RS /\ RS <= 4100 /\ RS - N < 4.
Proof. pose proof ret_size as H. destruct rk; [destruct H as [_ ->]; cbn; lia|lia|lia|lia]. Qed.
Lemma small_ret : in_mem rk = false -> RS <= 8.
Proof. pose proof ret_size as H. destruct rk; [destruct H as [_ ->]; lia|lia|lia|discriminate]. Qed.
Lemma retmem : has (pi_flags r) PassFlag_RetMem = in_mem rk.
Proof. apply Hc. Qed.
Lemma memtmp : MemRetWithTempObj r = false.
Proof. unfold MemRetWithTempObj. rewrite retmem. destruct Hc as (_ & _ & (_ & _ & C) & _). destruct rk; try reflexivity. apply C. Qed.
Lemma hid_ok : hid = 0 \/ hid = 4.
Proof. destruct (in_mem rk); auto. Qed.
Lemma void_dec : rk = RVoid \/ rk <> RVoid.
Proof. destruct rk; [left; reflexivity|right; discriminate ..]. Qed.
Lemma mem_void : in_mem rk = true -> rk <> RVoid.
Proof. destruct rk; discriminate. Qed.
Lemma ret_vars : rk <> RVoid -> v_ret_ptr gcc conv r = d - 28 /\ v_orig_ret gcc conv r = d - 28 - RS /\ v_override_ret gcc conv r = d - 28 - 2 * RS /\
  v_plugin_ret gcc conv r = d - 28 - 3 * RS /\ frame1 gcc conv r = d - 28 - 3 * RS.
Proof.
  intros H. assert (Z0 : (pi_size r =? 0) = false).
  { pose proof ret_size as K. destruct rk; [contradiction| | |]; apply Z.eqb_neq; apply K. }
  unfold v_ret_ptr, v_orig_ret, v_override_ret, v_plugin_ret, frame1. rewrite Z0, frame0_is. repeat split.
Qed.
Lemma void_vars : rk = RVoid -> v_orig_ret gcc conv r = 0 /\ v_override_ret gcc conv r = 0 /\ frame1 gcc conv r = d - 24 /\ N = 0.
Proof.
  intros H. assert (Z0 : (pi_size r =? 0) = true).
  { pose proof ret_size as K. rewrite H in K. apply Z.eqb_eq. apply K. }
  unfold v_ret_ptr, v_orig_ret, v_override_ret, v_plugin_ret, frame1. rewrite Z0, frame0_is, H. repeat split.
Qed.
Lemma frame_is : v_va_buf gcc conv r ps = (if vf then frame1 gcc conv r - 4100 else 0) /\ v_va_argptr gcc conv r ps = (if vf then frame1 gcc conv r - 4 else 0) /\
  frame5 gcc conv r ps = frame1 gcc conv r - (if vf then 4100 else 0).
Proof.
  assert (F3 : frame3 gcc conv r ps = frame1 gcc conv r).
  { unfold frame3, frame2. rewrite memtmp. destruct Hc as (_ & _ & _ & Hp & _). rewrite (fbrr_zero _ _ Hp). rewrite andb_false_r. reflexivity. }
  unfold v_va_buf, v_va_argptr, frame5, frame4. destruct Hc as (Ea & Ef & _). rewrite Ea, Ef, F3. unfold STRBUF_LEN. destruct vf; repeat split; lia.
Qed.
Lemma d_is : d = 0 \/ d = -4.
Proof. destruct (gcc || vf); auto. Qed.
Lemma f1_is : d - 28 - 3 * RS <= frame1 gcc conv r <= d - 24.
Proof.
  pose proof void_dec as D. pose proof ret_facts as F.
  destruct D as [V|V]; [destruct (void_vars V) as (_ & _ & -> & _)|destruct (ret_vars V) as (_ & _ & _ & _ & ->)]; lia.
Qed.
Lemma this_off : v_this gcc conv r = (if gcc || vf then 12 else -4) + (if in_mem rk && gcc then 4 else 0).
Proof. unfold v_this. rewrite retmem, (proj1 Hc). reflexivity. Qed.
Lemma memret_off : in_mem rk = true -> v_memret_addr gcc conv r = (if gcc then 12 else if vf then 16 else 12).
Proof. intros H. unfold v_memret_addr. rewrite retmem, (proj1 Hc), H. reflexivity. Qed.
Lemma base_is : B + param_base_offs gcc conv r = base0 gcc vf rk s0.
Proof. unfold param_base_offs, base0, head, on_stack. rewrite retmem, (proj1 Hc). destruct (gcc || vf), (in_mem rk); lia. Qed.
Lemma E_is : bot - 16 < E <= bot /\ E mod 16 = 0.
Proof. unfold E. pose proof (Z.mod_pos_bound bot 16). split; [lia|]. modlia. Qed.
Lemma S_ok : 2 ^ 16 <= S0 <= W32 - 2 ^ 17. Proof. apply He. Qed.
Lemma T_ok : 0 <= T < 2 ^ 15 - 8. Proof. split; [apply total_pos|apply Hc]. Qed.
Lemma bot_is : bot = B + frame1 gcc conv r - (if vf then 4100 else 0).
Proof. unfold bot. destruct frame_is as (_ & _ & ->). lia. Qed.
(** everything lia needs to know about the frame *)
Ltac nums :=
  pose proof d_is; pose proof f1_is; pose proof E_is as [? ?]; pose proof S_ok; pose proof T_ok; pose proof ret_facts; pose proof bot_is;
  pose proof base_is; pose proof hid_ok.
Lemma E_range : S0 - 4200 - 3 * RS <= E <= B + d - 24 /\ E mod 16 = 0.
Proof. nums. split; [destruct vf; lia|assumption]. Qed.
Lemma base0_is : base0 gcc vf rk s0 = S0 + (if gcc || vf then 8 else 4) + hid.
Proof. unfold base0, head, on_stack. destruct (gcc || vf); lia. Qed.

(** *** Own and shared bytes *)
Lemma shared_iff x : shared vf rk the_vars x <->
  B + d - 16 <= x < B + d \/ B + v_orig_ret gcc conv r <= x < B + v_orig_ret gcc conv r + N \/
  B + v_override_ret gcc conv r <= x < B + v_override_ret gcc conv r + N \/ vf = true /\ B + v_va_buf gcc conv r ps <= x < B + v_va_buf gcc conv r ps + 4096.
Proof.
  destruct vars_are as (E1 & E2 & E3 & E4 & _). unfold shared, areas, the_vars. cbn [a_orig a_status a_prev a_cur a_oret a_over a_buf]. rewrite E1, E2, E3, E4.
  rewrite !Exists_app. unfold inside.
  assert (A1 : Exists (fun a : Z * Z => fst a <= x < fst a + snd a) [(B + (d - 4), 4); (B + (d - 8), 4); (B + (d - 12), 4); (B + (d - 16), 4)] <-> B + d - 16 <= x < B + d).
  { split.
    - intros H. repeat (apply Exists_cons in H; destruct H as [H|H]; [cbn [fst snd] in H; lia|]). apply Exists_nil in H. destruct H.
    - intros H. rewrite !Exists_cons. cbn [fst snd]. lia. }
  assert (A2 : Exists (fun a : Z * Z => fst a <= x < fst a + snd a)
     match rk with RVoid => [] | _ => [(B + v_orig_ret gcc conv r, N); (B + v_override_ret gcc conv r, N)] end <->
     B + v_orig_ret gcc conv r <= x < B + v_orig_ret gcc conv r + N \/ B + v_override_ret gcc conv r <= x < B + v_override_ret gcc conv r + N).
  { destruct rk; [cbn [rsize]; rewrite Exists_nil; split; [tauto|lia]| | |]; rewrite !Exists_cons, Exists_nil; cbn [fst snd]; tauto. }
  assert (A3 : Exists (fun a : Z * Z => fst a <= x < fst a + snd a) (if vf then [(B + v_va_buf gcc conv r ps, buf_len)] else []) <->
     vf = true /\ B + v_va_buf gcc conv r ps <= x < B + v_va_buf gcc conv r ps + 4096).
  { destruct vf; rewrite ?Exists_cons, Exists_nil; cbn [fst snd]; unfold buf_len; [tauto|]. split; [tauto|]. intros [X _]. discriminate X. }
  rewrite A1, A2, A3. tauto.
Qed.
Lemma own_dec x : own x \/ ~ own x.
Proof.
  unfold Jit32HookSpec.own. rewrite shared_iff.
  assert (V : vf = true \/ vf <> true) by (destruct vf; [left; reflexivity|right; discriminate]).
  assert (D : forall a b, a <= x < b \/ ~ (a <= x < b)) by (intros; lia).
  destruct (D (S0 - depth) (base0 gcc vf rk s0 + T)), (D (B + d - 16) (B + d)), (D (B + v_orig_ret gcc conv r) (B + v_orig_ret gcc conv r + N)),
    (D (B + v_override_ret gcc conv r) (B + v_override_ret gcc conv r + N)), (D (B + v_va_buf gcc conv r ps) (B + v_va_buf gcc conv r ps + 4096)), V; tauto.
Qed.
Ltac ownt :=
  nums; rewrite base0_is in *; unfold Jit32HookSpec.own, Jit32HookSpec.depth; rewrite shared_iff; rewrite base0_is; destruct frame_is as (Fb & Fa & _);
  pose proof void_dec as Dr;
  assert (Dv : vf = true \/ vf = false) by (destruct vf; auto);
  destruct Dr as [Dr|Dr]; [destruct (void_vars Dr) as (Vo & Vv & V1 & VN)|destruct (ret_vars Dr) as (Vr & Vo & Vv & Vp & V1)];
  destruct Dv as [Dv|Dv]; rewrite Dv in *; cbn [orb] in *; rewrite ?orb_true_r, ?orb_false_r in *; try contradiction; destruct gcc; try lia.
Lemma own_stack x : S0 - depth <= x < E -> own x.
Proof. unfold Jit32HookSpec.depth. intros H. ownt. Qed.
Lemma own_top x : B + d <= x < base0 gcc vf rk s0 + T -> own x.
Proof. rewrite base0_is. intros H. ownt. Qed.
Lemma own_ctx x : B + d - 24 <= x < B + d - 16 -> own x.
Proof. intros H. ownt. Qed.
Lemma own_ret x : rk <> RVoid -> B + d - 28 <= x < B + d - 24 -> own x.
Proof. intros R H. ownt. Qed.
Lemma own_plugin x : rk <> RVoid -> B + d - 28 - 3 * RS <= x < B + d - 28 - 2 * RS -> own x.
Proof. intros R H. ownt. Qed.
Lemma own_pad x : rk <> RVoid -> B + d - 28 - RS + N <= x < B + d - 28 -> own x.
Proof. intros R H. ownt. Qed.
Lemma own_argptr x : vf = true -> B + frame1 gcc conv r - 4 <= x < B + frame1 gcc conv r -> own x.
Proof. intros R H. ownt. Qed.
Lemma not_own_vars x : B + d - 16 <= x < B + d -> ~ own x.
Proof. intros H (_ & K). apply K. apply shared_iff. lia. Qed.
Lemma not_own_oret x : B + v_orig_ret gcc conv r <= x < B + v_orig_ret gcc conv r + N -> ~ own x.
Proof. intros H (_ & K). apply K. apply shared_iff. lia. Qed.
Lemma not_own_over x : B + v_override_ret gcc conv r <= x < B + v_override_ret gcc conv r + N -> ~ own x.
Proof. intros H (_ & K). apply K. apply shared_iff. lia. Qed.
Lemma not_own_buf x : vf = true -> B + v_va_buf gcc conv r ps <= x < B + v_va_buf gcc conv r ps + 4096 -> ~ own x.
Proof. intros V H (_ & K). apply K. apply shared_iff. tauto. Qed.
Lemma the_separate : separate vf pks rk s0 the_vars.
Proof.
  destruct vars_are as (E1 & E2 & E3 & E4 & _). unfold separate, areas, the_vars. cbn [a_orig a_status a_prev a_cur a_oret a_over a_buf].
  rewrite E1, E2, E3, E4. unfold Jit32HookSpec.depth, buf_len.
  assert (X : forall P : Z * Z -> Z * Z -> Prop, forall l m, ForallOrdPairs P l -> ForallOrdPairs P m -> (forall a b, In a l -> In b m -> P a b) -> ForallOrdPairs P (l ++ m)).
  { intros P l m Hl Hm. induction Hl as [|a l Ha Hl IH]; intros H; [exact Hm|]. cbn [app]. constructor.
    - apply Forall_app. split; [exact Ha|]. apply Forall_forall. intros b Hb. apply H; [left; reflexivity|exact Hb].
    - apply IH. intros a' b Ha' Hb. apply H; [right; exact Ha'|exact Hb]. }
  nums. destruct frame_is as (Fb & _).
  pose proof void_dec as Dr.
  assert (R : exists l, (l = [] \/ rk <> RVoid /\ l = [(B + v_orig_ret gcc conv r, N); (B + v_override_ret gcc conv r, N)]) /\
    l = match rk with RVoid => [] | _ => [(B + v_orig_ret gcc conv r, N); (B + v_override_ret gcc conv r, N)] end).
  { destruct rk; eexists; split; try reflexivity; [left; reflexivity|right; split; [discriminate|reflexivity] ..]. }
  destruct R as (l & Cl & <-).
  assert (R : exists l', (l' = [] \/ l' = [(B + (frame1 gcc conv r - 4100), 4096)]) /\ l' = if vf then [(B + v_va_buf gcc conv r ps, 4096)] else []).
  { rewrite Fb. destruct vf; eexists; split; try reflexivity; [right|left]; reflexivity. }
  destruct R as (l' & Cl' & <-). clear Fb.
  assert (Hl : forall a, In a l -> rk <> RVoid /\ (a = (B + (d - 28 - RS), N) \/ a = (B + (d - 28 - 2 * RS), N)) /\ frame1 gcc conv r = d - 28 - 3 * RS).
  { intros a Ha. destruct Cl as [-> |(Rv & ->)]; [destruct Ha|]. destruct (ret_vars Rv) as (_ & V1 & V2 & _ & V3). split; [exact Rv|]. split; [|exact V3].
    rewrite V1, V2 in Ha. destruct Ha as [Ha|[Ha|[]]]; auto. }
  assert (Hl' : forall a, In a l' -> a = (B + (frame1 gcc conv r - 4100), 4096)).
  { intros a Ha. destruct Cl' as [-> | -> ]; [destruct Ha|]. destruct Ha as [Ha|[]]; auto. }
  split; [|split].
  - repeat apply X.
    + repeat constructor; cbn [fst snd]; lia.
    + destruct Cl as [-> |(Rv & ->)]; [constructor|]. destruct (ret_vars Rv) as (_ & -> & -> & _). repeat constructor; cbn [fst snd]; lia.
    + destruct Cl' as [-> | -> ]; repeat constructor.
    + intros a b Ha Hb. destruct (Hl a Ha) as (_ & [-> | -> ] & F1); rewrite (Hl' b Hb); cbn [fst snd]; lia.
    + intros a b Ha Hb. assert (A : B + d - 16 <= fst a). { cbn [In] in Ha. decompose [or] Ha; subst; cbn [fst]; try tauto; lia. }
      apply in_app_or in Hb. destruct Hb as [Hb|Hb]; [destruct (Hl b Hb) as (_ & [-> | -> ] & F1)|rewrite (Hl' b Hb)]; cbn [fst snd]; lia.
  - apply Forall_app. split; [repeat constructor; cbn [fst snd]; lia|]. apply Forall_app. split; apply Forall_forall; intros a Ha.
    + destruct (Hl a Ha) as (_ & [-> | -> ] & F1); cbn [fst snd]; lia.
    + rewrite (Hl' a Ha); cbn [fst snd]; lia.
  - intros Im. unfold plug. cbn [a_plug fst snd]. rewrite Im. destruct (ret_vars (mem_void Im)) as (_ & _ & _ & -> & F1).
    split; [lia|]. apply Forall_app. split; [repeat constructor; cbn [fst snd]; lia|]. apply Forall_app. split; apply Forall_forall; intros a Ha.
    + destruct (Hl a Ha) as (_ & [-> | -> ] & _); cbn [fst snd]; lia.
    + rewrite (Hl' a Ha); cbn [fst snd]; lia.
Qed.

(** *** Memory *)
Lemma agree_refl m : agree m m.
Proof. intros x _ _. reflexivity. Qed.
Lemma agree_trans m1 m2 m3 : agree m1 m2 -> agree m2 m3 -> agree m1 m3.
Proof. intros H K x Hx Ho. rewrite K, H by assumption. reflexivity. Qed.
Lemma agree_sto m m' a n v : agree m m' -> agree (sto m a n v) (sto m' a n v).
Proof. intros H x Hx Ho. apply sto_congr. apply H; assumption. Qed.
Lemma agree_own m m' a n v : 0 <= a -> a + Z.of_nat n <= W32 -> (forall x, a <= x < a + Z.of_nat n -> own x) -> agree m m' -> agree m (sto m' a n v).
Proof.
  intros Ha Hn Ho H x Hx Hno. rewrite sto_out; [apply H; assumption|exact Ha|exact Hn|]. intros K. exact (Hno (Ho x K)).
Qed.
Lemma agree_out m m' m2 : (forall x, ~ own x -> m2 x = m' x) -> agree m m' -> agree m m2.
Proof. intros H K x Hx Hno. rewrite H by assumption. apply K; assumption. Qed.
Lemma ld_agree m m' a n : 0 <= a -> a + Z.of_nat n <= W32 -> (forall x, a <= x < a + Z.of_nat n -> ~ own x) -> agree m m' -> ld m' a n = ld m a n.
Proof. intros Ha Hn Ho H. apply ld_ext; [exact Ha|exact Hn|]. intros x Hx. apply H; [lia|apply Ho; exact Hx]. Qed.
Lemma depth_is : depth = 8192 + T + 4 * N. Proof. reflexivity. Qed.
(** pushing below the frame *)
Lemma agree_push m m' a v : S0 - depth <= a -> a + 4 <= E -> agree m m' -> agree m (st4 m' a v).
Proof.
  intros H1 H2. nums. rewrite depth_is in H1. pose proof E_range as [? _]. apply agree_own; [lia|unfold W32 in *; lia|].
  intros x Hx. apply own_stack. rewrite depth_is. lia.
Qed.

(** *** Calls *)
Lemma returned_dec obj sg e : returned_but gcc vf pks rk s0 the_vars E obj sg e \/ ~ returned_but gcc vf pks rk s0 the_vars E obj sg e.
Proof.
  unfold returned_but.
  set (A := rg (e_out e) ESP = _). assert (DA : A \/ ~ A) by (unfold A; destruct (Z.eq_dec (rg (e_out e) ESP) (rg (e_in e) ESP + 4 + c_pop sg)); auto).
  set (C := length (fp (e_out e)) = _). assert (DC : C \/ ~ C) by (unfold C; destruct (Nat.eq_dec (length (fp (e_out e))) (if c_float sg then 1%nat else 0%nat)); auto).
  assert (DS : saved (e_in e) (e_out e) \/ ~ saved (e_in e) (e_out e)).
  { assert (G : forall l, (forall q, In q l -> rg (e_out e) q = rg (e_in e) q) \/ ~ (forall q, In q l -> rg (e_out e) q = rg (e_in e) q)).
    { induction l as [|q l [IH|IH]]; [left; intros q []| |right; intros K; apply IH; intros q1 Hq1; apply K; right; exact Hq1].
      destruct (Z.eq_dec (rg (e_out e) q) (rg (e_in e) q)) as [Y|Y]; [left; intros q' [<- |Hq]; [exact Y|exact (IH q' Hq)]|right; intros K; apply Y, K; left; reflexivity]. }
    exact (G nonvolatile). }
  assert (DM : (forall x, own x -> E <= x -> ~ inside obj x -> mm (e_out e) x = mm (e_in e) x) \/ ~ (forall x, own x -> E <= x -> ~ inside obj x -> mm (e_out e) x = mm (e_in e) x)).
  { set (len := Z.to_nat (base0 gcc vf rk s0 + T - E)).
    assert (Le : Z.of_nat len = base0 gcc vf rk s0 + T - E).
    { unfold len. pose proof E_range as [Er _]. nums. rewrite base0_is. rewrite Z2Nat.id; [lia|]. destruct (gcc || vf); lia. }
    destruct (dec_all (fun x => own x -> ~ inside obj x -> mm (e_out e) x = mm (e_in e) x) E len) as [Y|Y].
    - intros x. destruct (own_dec x) as [Ox|Ox]; [|left; tauto].
      assert (Di : inside obj x \/ ~ inside obj x) by (unfold inside; lia). destruct Di as [Di|Di]; [left; tauto|].
      destruct (Z.eq_dec (mm (e_out e) x) (mm (e_in e) x)); [left; auto|right; auto].
    - left. intros x Ox Hx Ix. apply Y; [|exact Ox|exact Ix]. destruct Ox as (Ox & _). lia.
    - right. intros K. apply Y. intros x Hx Ox Ix. apply K; [exact Ox|lia|exact Ix]. }
  tauto.
Qed.
Notation W := (W u base env PL outcome).
Lemma call_but_W obj sg m0 (P : (Z -> Z) -> event -> Prop) (K : event -> sys) q l s tr R df m m1 :
  is s R [] df m -> 0 <= q < 8 -> S0 - depth <= rsp R - 4 -> rsp R + c_args sg <= E -> 0 <= c_args sg -> rsp R mod c_align sg = 0 ->
  agree m0 m1 -> agree m1 m ->
  (forall e v, e_target e = getr R q -> is (e_in e) (setr R 4 (rsp R - 4)) [] df (st4 m (rsp R - 4) v) -> P m1 e) ->
  (forall e a c dx f' df' m', is (e_out e) (R8 a c dx (rb R) (rsp R + c_pop sg) (rbp R) (rsi R) (rdi R)) f' df' m' ->
     after e = m' -> eax e = a -> rg (e_out e) EDX = dx -> fp (e_out e) = f' -> length f' = (if c_float sg then 1%nat else 0%nat) ->
     (forall x, own x -> E <= x -> ~ inside obj x -> m' x = m x) -> W l (e_out e) (tr ++ [e]) (K e)) ->
  W (ACall_Reg q :: l) s tr (call_but gcc vf pks rk s0 the_vars E obj sg m0 P K).
Proof.
  intros I Hq H1 H2 H3 H4 A0 A1 HP HK. rewrite depth_is in H1. pose proof E_range as [Er _]. nums.
  eapply (X_call _ _ _ _ _ _ _ _ _ _ _ _ _ I q (rsp R - 4) Hq); [apply w32_small; unfold W32 in *; lia|].
  intros e v Te Ie Ee. assert (Esp : rg (e_in e) ESP = rsp R - 4).
  { destruct Ie as (G & _). unfold ESP at 1. rewrite G by lia. rewrite get_set by lia. reflexivity. }
  assert (En : entered gcc vf pks rk s0 the_vars E sg m0 P e).
  { split; [apply Ie|]. rewrite Esp. split; [replace (rsp R - 4 + 4) with (rsp R) by lia; exact H4|]. rewrite depth_is. split; [lia|]. split; [lia|].
    exists m1. split; [exact A0|]. split; [|exact (HP e v Te Ie)]. replace (mm (e_in e)) with (st4 m (rsp R - 4) v) by (symmetry; apply Ie).
    apply agree_push; [rewrite depth_is; lia|lia|exact A1]. }
  destruct (returned_dec obj sg e) as [Y|Y].
  - assert (Wf : wf (e_out e)).
    { rewrite Ee. apply He. apply Ie. }
    destruct Y as (Y1 & Y2 & Y3 & Y4).
    apply W_weak with (F := K e).
    { intros a b c Hk. exists e, a. split; [reflexivity|]. split; [exact En|]. left. split; [|exact Hk]. split; [exact Y1|]. split; [exact Y2|]. split; [exact Y3|exact Y4]. }
    pose proof (is_self _ Wf) as Io.
    assert (R3 : forall z, In z nonvolatile -> 0 <= z < 8 -> z <> 4 -> rg (e_out e) z = getr R z).
    { intros z Hz Hz8 Hz4. rewrite (Y3 z Hz). destruct Ie as (G & _). rewrite G by exact Hz8. rewrite get_set by lia.
      destruct (Z.eqb_spec z 4); [contradiction|reflexivity]. }
    assert (Q4 : rg (e_out e) 4 = rsp R + c_pop sg).
    { change 4 with ESP at 1. rewrite Y1, Esp. lia. }
    rewrite Q4 in Io. rewrite (R3 3), (R3 5), (R3 6), (R3 7) in Io by (unfold nonvolatile; cbn; unfold EBX, EBP, ESI, EDI; lia || tauto).
    apply (HK e (rg (e_out e) 0) (rg (e_out e) 1) (rg (e_out e) 2) (fp (e_out e)) (Mach32.df (e_out e)) (mm (e_out e))).
    + exact Io.
    + reflexivity.
    + reflexivity.
    + reflexivity.
    + reflexivity.
    + exact Y2.
    + intros x Ox Hx Ix. rewrite (Y4 x Ox Hx Ix). replace (mm (e_in e)) with (st4 m (rsp R - 4) v) by (symmetry; apply Ie).
      apply st4_out; unfold W32 in *; lia.
  - apply (W_stop _ _ _ _ _ _ _ _ _ Broken). exists e, []. split; [reflexivity|]. split; [exact En|]. right. split; [exact Y|]. split; reflexivity.
Qed.

Lemma call_W sg m0 (P : (Z -> Z) -> event -> Prop) (K : event -> sys) q l s tr R df m m1 :
  is s R [] df m -> 0 <= q < 8 -> S0 - depth <= rsp R - 4 -> rsp R + c_args sg <= E -> 0 <= c_args sg -> rsp R mod c_align sg = 0 ->
  agree m0 m1 -> agree m1 m ->
  (forall e v, e_target e = getr R q -> is (e_in e) (setr R 4 (rsp R - 4)) [] df (st4 m (rsp R - 4) v) -> P m1 e) ->
  (forall e a c dx f' df' m', is (e_out e) (R8 a c dx (rb R) (rsp R + c_pop sg) (rbp R) (rsi R) (rdi R)) f' df' m' ->
     after e = m' -> eax e = a -> rg (e_out e) EDX = dx -> fp (e_out e) = f' -> length f' = (if c_float sg then 1%nat else 0%nat) ->
     (forall x, own x -> E <= x -> m' x = m x) -> W l (e_out e) (tr ++ [e]) (K e)) ->
  W (ACall_Reg q :: l) s tr (call gcc vf pks rk s0 the_vars E sg m0 P K).
Proof.
  intros I Hq H1 H2 H3 H4 A0 A1 HP HK. unfold call. eapply (call_but_W nothing); try eassumption.
  intros e a c dx f' df' m' Io E1 E2 E3 E4 E5 So. eapply HK; try eassumption. intros x Ox Hx. apply So; [exact Ox|exact Hx|]. unfold inside, nothing. cbn [fst snd]. lia.
Qed.

(** *** What holds between the calls *)
Definition fm : Z -> Z :=
  let m := st4 (st4 (mm s0) (S0 - 4) (rg s0 EBP)) (S0 - 8) (rg s0 EBX) in if gcc || vf then m else st4 m (S0 - 12) (rg s0 ECX).
Definition keep (m : Z -> Z) : Prop := forall x, B + d <= x < base0 gcc vf rk s0 + T -> m x = fm x.
Lemma keep_top m m' : keep m -> (forall x, own x -> E <= x -> m' x = m x) -> keep m'.
Proof.
  intros H K x Hx. rewrite K; [apply H; exact Hx|apply own_top; exact Hx|]. pose proof E_range. lia.
Qed.
Lemma keep_sto m a n v : keep m -> 0 <= a -> a + Z.of_nat n <= W32 -> a + Z.of_nat n <= B + d \/ base0 gcc vf rk s0 + T <= a -> keep (sto m a n v).
Proof. intros H A1 A2 A3 x Hx. rewrite sto_out by lia. apply H. exact Hx. Qed.
Lemma keep_place m a n v : keep m -> 0 <= a -> a + Z.of_nat n <= W32 -> (forall x, a <= x < a + Z.of_nat n -> ~ own x) -> keep (sto m a n v).
Proof. intros H A1 A2 A3 x Hx. rewrite sto_out; [apply H; exact Hx|exact A1|exact A2|]. intros K. apply (A3 x K). apply own_top. exact Hx. Qed.
Lemma keep_out m m' : keep m -> (forall x, B + d <= x -> m' x = m x) -> keep m'.
Proof. intros H K x Hx. rewrite K by lia. apply H. exact Hx. Qed.
Lemma fm_above x : S0 <= x -> fm x = mm s0 x.
Proof.
  intros Hx. nums. unfold fm. destruct (gcc || vf); rewrite ?st4_out by (unfold W32 in *; lia); reflexivity.
Qed.
Lemma okg z : okr (rg s0 z).
Proof. apply He. Qed.
Definition keep0 (m : Z -> Z) : Prop := forall x, B + d <= x < base0 gcc vf rk s0 -> m x = fm x.
Lemma keep0_regs m : keep0 m -> ld4 m B = rg s0 EBX /\ ld4 m (B + 4) = rg s0 EBP /\ ld4 m (B + 8) = ld4 (mm s0) S0 /\
  ld4 m (B + v_this gcc conv r) = this0 gcc vf rk s0.
Proof.
  intros H. nums. rewrite this_off.
  assert (X : forall a, B + d <= a -> a + 4 <= base0 gcc vf rk s0 -> ld4 m a = ld4 fm a).
  { intros a Ha Hb. apply ld4_ext; [lia|rewrite base0_is in Hb; unfold W32 in *; destruct (gcc || vf); lia|]. intros x Hx. apply H. lia. }
  rewrite !base0_is in *. unfold this0, obj_at, on_stack, arg.
  assert (F0 : ld4 fm B = rg s0 EBX). { unfold fm. destruct (gcc || vf); rewrite ?ld4_diff, ld4_same by (try apply okg; unfold W32 in *; lia); reflexivity. }
  assert (F4 : ld4 fm (B + 4) = rg s0 EBP). { replace (B + 4) with (S0 - 4) by lia. unfold fm. destruct (gcc || vf); rewrite ?ld4_diff, ld4_same by (try apply okg; unfold W32 in *; lia); reflexivity. }
  assert (F8 : forall z, S0 <= z -> z + 4 <= W32 -> ld4 fm z = ld4 (mm s0) z).
  { intros z Hz Hz2. apply ld4_ext; [lia|lia|]. intros x Hx. apply fm_above. lia. }
  destruct (gcc || vf) eqn:Eg.
  - repeat split.
    + rewrite X by lia. exact F0.
    + rewrite X by lia. exact F4.
    + rewrite X by lia. rewrite F8 by (unfold W32 in *; lia). f_equal. lia.
    + rewrite andb_comm. destruct (gcc && in_mem rk) eqn:Em.
      * apply andb_true_iff in Em. destruct Em as (_ & Em). rewrite Em in *. rewrite X by lia. rewrite F8 by (unfold W32 in *; lia).
        f_equal. symmetry. apply w32_is; unfold W32 in *; lia.
      * rewrite X by lia. rewrite F8 by (unfold W32 in *; lia). f_equal. symmetry. apply w32_is; unfold W32 in *; lia.
  - assert (Eg' : gcc = false) by (destruct gcc; [discriminate Eg|reflexivity]). rewrite Eg', andb_false_r. repeat split.
    + rewrite X by lia. exact F0.
    + rewrite X by lia. exact F4.
    + rewrite X by lia. rewrite F8 by (unfold W32 in *; lia). f_equal. lia.
    + rewrite X by lia. replace (B + (-4 + 0)) with (S0 - 12) by lia. unfold fm. rewrite Eg. rewrite ld4_same by (try apply okg; unfold W32 in *; lia). reflexivity.
Qed.
Lemma keep0_target m : keep0 m -> in_mem rk = true -> ld4 m (B + v_memret_addr gcc conv r) = target0 gcc vf s0.
Proof.
  intros H Im. nums. rewrite (memret_off Im).
  assert (X : forall a, S0 <= a -> a + 4 <= base0 gcc vf rk s0 -> ld4 m a = ld4 (mm s0) a).
  { intros a Ha Hb. apply ld4_ext; [lia|rewrite base0_is in Hb; unfold W32 in *; destruct (gcc || vf); lia|]. intros x Hx. rewrite H by lia. apply fm_above. lia. }
  rewrite base0_is, Im in *. unfold target0, place_at, on_stack, arg.
  destruct gcc; cbn [orb andb negb] in *; [|destruct vf; cbn [andb] in *]; rewrite X by lia; f_equal; symmetry; apply w32_is; unfold W32 in *; lia.
Qed.
Lemma keep_regs m : keep m -> ld4 m B = rg s0 EBX /\ ld4 m (B + 4) = rg s0 EBP /\ ld4 m (B + 8) = ld4 (mm s0) S0 /\
  ld4 m (B + v_this gcc conv r) = this0 gcc vf rk s0.
Proof. intros H. apply keep0_regs. intros x Hx. apply H. pose proof T_ok. lia. Qed.
Lemma keep_target m : keep m -> in_mem rk = true -> ld4 m (B + v_memret_addr gcc conv r) = target0 gcc vf s0.
Proof. intros H. apply keep0_target. intros x Hx. apply H. pose proof T_ok. lia. Qed.
(** the frame is set up; [m] is the memory as others see it *)
Definition inv (s : st) (m : Z -> Z) (ctx : Z) : Prop :=
  exists a c dx b df mem, is s (R8 a c dx b E B (rg s0 ESI) (rg s0 EDI)) [] df mem /\ agree m mem /\ keep mem /\ ld4 mem (B + d - 24) = ctx.
End Frame.
