(** C69: the hook function of a hook manager generated for 32-bit x86 (GCC and MSVC). *)
From Coq Require Import List ZArith Bool Lia.
From Verif Require Import TrampModel ProtoModel GenModel Asm32Model Asm32Spec Asm32Proofs Mach32 Mach32Proofs
  Jit32Model Jit32Spec Jit32Steps Jit32Base Jit32PubProofs Jit32PubProps Jit32HookSpec Jit32HookList Jit32Arith Jit32Frame Jit32Push Jit32Blocks.
Import ListNotations.
Local Open Scope Z_scope.
Notation length := List.length.

(** The generated bytes on a processor, from the entry of the function, for either compiler, with any
    contents of registers and memory, for any prototype whose parameters are numbers, references, or
    objects that are passed on the stack and copied bytewise (at most 2^15 bytes in all), with or without
    a format and variable arguments, and whose result is void, a reference, an integer, a floating
    point number, an object of 1, 2, 4 or 8 bytes that is returned in registers, or an object of at most
    4096 bytes that is returned in memory and copied bytewise.  The called functions (SetupHookLoop, GetNext, the handlers, the original, ...) may do
    anything.  There are addresses on the stack for the variables such that the execution follows the
    protocol of Jit32HookSpec.v: it makes those calls, in that order, to those addresses, with those
    arguments where a function of that compiler looks for them, with the memory that the protocol
    demands; until each of the two loops has called L handlers, or a called function did not return as
    the conventions say or wrote to the bytes the function keeps for itself, or the function is at its
    return instruction with the stack pointer of the entry, ebx, ebp, esi, edi and the return address
    unchanged and the result the protocol demands (or the place of the result, which the context gave, is
    not usable).  Missing: result objects with constructors, destructors or assignment operators, parameters
    with copy constructors or passed by hidden reference (see C69_object_refuted). *)
Definition follows (u : fpu) (base : Z) (env : nat -> Z -> st -> st) (gcc : bool) (conv : Z) (k : consts) (r : passinfo) (ps : list passinfo)
    (vf : bool) (rk : rkind) (pks : list pkind) (s0 : st) : Prop :=
  let h := Iface (k_sh k) (k_setup k) (k_end k) (k_phi k) (k_offs k) (k_idx k) (k_vsn k) (k_fmt k) in
  let code := hook_func gcc conv k r ps in
  exists v low, separate vf pks rk s0 v /\ Forall (fun a => low <= fst a) (areas vf rk v) /\ (in_mem rk = true -> low <= fst (plug rk v)) /\
  rg s0 ESP - depth pks rk <= low /\
  forall L, exists tr s o,
    reaches u base env code (s0, []) (s, tr) /\
    protocol gcc vf u h pks rk s0 v low (at_ret code (pops gcc vf pks rk)) L tr s o.
(** the variable m_pHI is not on the function's stack *)
Definition phi_apart (gcc vf : bool) (pks : list pkind) (rk : rkind) (k : consts) (s0 : st) : Prop :=
  w32 (k_phi k) + 4 <= W32 /\
  (w32 (k_phi k) + 4 <= rg s0 ESP - depth pks rk \/ base0 gcc vf rk s0 + total pks <= w32 (k_phi k)).
Definition entry_ok (env : nat -> Z -> st -> st) (gcc : bool) (conv : Z) (k : consts) (r : passinfo) (ps : list passinfo)
    (vf : bool) (rk : rkind) (pks : list pkind) (s0 : st) : Prop :=
  consts_ok k /\ -128 <= k_offs k /\ 0 <= k_idx k < 2 ^ 28 /\
  cls conv r ps vf rk pks /\ entry env s0 /\ pc s0 = 0 /\ phi_apart gcc vf pks rk k s0 /\ target_ok gcc vf pks rk s0.

Theorem C69_hookfunc_partial : forall u base env gcc conv k r ps vf rk pks s0,
  fpu_ok u -> entry_ok env gcc conv k r ps vf rk pks s0 -> follows u base env gcc conv k r ps vf rk pks s0.
Proof.
  intros u base env gcc conv k r ps vf rk pks s0 Hu (Hk & Ho & Hi & Hc & He & Hpc & (Hp1 & Hp2) & Tok). unfold follows. cbv zeta.
  exists (the_vars gcc conv r ps s0), (E gcc conv r ps s0).
  split; [exact (the_separate env gcc conv r ps vf rk pks s0 Hc He)|].
  assert (P : phi_ok gcc conv k r ps vf rk pks s0).
  { split; [exact Hp1|]. intros x Hx (Y & _). lia. }
  split; [exact (low_vars env gcc conv r ps vf rk pks s0 Hc He)|].
  split; [exact (low_plug env gcc conv r ps vf rk pks s0 Hc He)|].
  split; [exact (low_depth env gcc conv r ps vf rk pks s0 Hc He)|]. intros L.
  destruct (hook_W u base env gcc conv k r ps vf rk pks s0 (hook_list gcc conv k r ps) Hu Hc He L Tok Hk Ho Hi P) as (tr & s & o & R & Q).
  { exists []. reflexivity. }
  exists tr, s, o. rewrite hook_func_list. split; [|exact Q].
  rewrite Z.sub_diag in R. rewrite (set_pc_same s0 0 Hpc) in R. exact R.
Qed.
Print Assumptions C69_hookfunc_partial.

(** ** What the protocol means at the end of a run *)
Section Ends.
Variables (gcc vf : bool) (u : fpu) (h : iface) (pks : list pkind) (rk : rkind) (s0 : st) (v : vars) (low : Z) (fin : st -> Prop).
Local Notation call_but := (call_but gcc vf pks rk s0 v low).
Local Notation fin_at s := (exists p m, finished gcc vf u pks rk s0 v fin p m [] s Done).
Definition ends (K : sys) : Prop := forall tr s, K tr s Done -> fin_at s.
Lemma ends_call obj sg m P K : (forall e, ends (K e)) -> ends (call_but obj sg m P K).
Proof. intros H tr s (e & tr' & _ & _ & [(_ & G)|(_ & _ & G)]); [exact (H e tr' s G)|discriminate G]. Qed.
Lemma ends_guard P K : ends K -> ends (guard P K).
Proof. intros H tr s [(_ & G)|(_ & _ & G)]; [exact (H tr s G)|discriminate G]. Qed.
Lemma ends_hooks L : forall ctx m K, (forall m, ends (K m)) -> ends (hooks gcc vf u pks rk s0 v low L ctx m K).
Proof.
  induction L as [|L IH]; intros ctx m K H; cbn [hooks]; [intros tr s (_ & G); discriminate G|].
  apply ends_call. intros e. destruct (eax e =? 0); [apply H|]. apply ends_call. intros f. cbv zeta.
  destruct (overrides _ _ _); [|apply IH; exact H]. apply ends_call. intros g. apply ends_guard. apply IH. exact H.
Qed.
Lemma ends_destroy l : forall a m K, (forall m, ends (K m)) -> ends (destroy gcc vf pks rk s0 v low l a m K).
Proof.
  induction l as [|p l IH]; intros a m K H; cbn [destroy]; [apply H|]. destruct (pk_dtor p); [apply ends_call; intros e|]; apply IH; exact H.
Qed.
Lemma ends_void X Y : ends X -> ends Y -> ends (match rk with RVoid => X | _ => Y end).
Proof. destruct rk; auto. Qed.
Lemma ends_if (b : bool) X Y : ends X -> ends Y -> ends (if b then X else Y).
Proof. destruct b; auto. Qed.
Lemma protocol_ends L : ends (protocol gcc vf u h pks rk s0 v low fin L).
Proof.
  unfold protocol, begin. cbv zeta.
  assert (X : forall m, ends (call gcc vf pks rk s0 v low (setup_sig gcc) m (setup gcc vf h rk s0 v) (fun e =>
    hooks gcc vf u pks rk s0 v low L (eax e) (st4 (after e) (a_prev v) IGNORED) (fun m => orig gcc vf u h pks rk s0 v low (eax e) m (fun m =>
    hooks gcc vf u pks rk s0 v low L (eax e) (st4 m (a_prev v) IGNORED) (fun m => ret_ptr gcc vf pks rk s0 v low (eax e) m (fun p m =>
    call gcc vf pks rk s0 v low (end_sig gcc) m (end_context gcc h (eax e)) (fun e => destroy gcc vf pks rk s0 v low pks (base0 gcc vf rk s0) (after e) (finished gcc vf u pks rk s0 v fin p))))))))).
  { intros m. apply ends_call. intros e. apply ends_hooks. intros m1. unfold orig.
    assert (Y : forall m, ends (hooks gcc vf u pks rk s0 v low L (eax e) (st4 m (a_prev v) IGNORED) (fun m => ret_ptr gcc vf pks rk s0 v low (eax e) m (fun p m =>
      call gcc vf pks rk s0 v low (end_sig gcc) m (end_context gcc h (eax e)) (fun e => destroy gcc vf pks rk s0 v low pks (base0 gcc vf rk s0) (after e) (finished gcc vf u pks rk s0 v fin p)))))).
    { intros m2. apply ends_hooks. intros m3.
      assert (Z : forall p m, ends (call gcc vf pks rk s0 v low (end_sig gcc) m (end_context gcc h (eax e)) (fun e => destroy gcc vf pks rk s0 v low pks (base0 gcc vf rk s0) (after e) (finished gcc vf u pks rk s0 v fin p)))).
      { intros p m4. apply ends_call. intros f. apply ends_destroy. intros m5 tr s [(T0 & T1 & T2 & T3)|(_ & _ & T)]; [|discriminate T]. exists p, m5. left. split; [exact T0|]. split; [reflexivity|]. split; [reflexivity|exact T3]. }
      unfold ret_ptr. apply ends_void; [apply Z|apply ends_call; intros f; apply Z]. }
    destruct (_ =? SUPERCEDE); [apply Y|]. apply ends_call. intros f. destruct (_ =? 0); [apply Y|]. apply ends_call. intros g. apply Y. }
  apply ends_if; [apply ends_call; intros e|]; apply X.
Qed.
End Ends.

(** A run that is finished: the function is at its return instruction, which takes off the parameters if
    the convention says so; stack pointer, saved registers and return address are those of the entry. *)
Theorem C69_returns : forall u h gcc vf rk pks s0 v low code L tr s,
  protocol gcc vf u h pks rk s0 v low (at_ret code (pops gcc vf pks rk)) L tr s Done ->
  at_ret code (pops gcc vf pks rk) s /\ rg s ESP = rg s0 ESP /\ saved s0 s /\
  ld4 (mm s) (rg s0 ESP) = ld4 (mm s0) (rg s0 ESP) /\ exists p, gets gcc vf u rk s0 s p.
Proof.
  intros u h gcc vf rk pks s0 v low code L tr s H.
  destruct (protocol_ends _ _ _ _ _ _ _ _ _ _ _ _ _ H) as (p & m & [(_ & _ & _ & F1 & F2 & F3 & F4 & F5 & F6)|(_ & _ & F)]); [|discriminate F].
  split; [exact F1|]. split; [exact F4|]. split; [exact F5|]. split; [exact F6|]. exists p. exact F3.
Qed.
Print Assumptions C69_returns.

(** ** A concrete case *)
Fixpoint run (u : fpu) (base : Z) (env : nat -> Z -> st -> st) (code : list Z) (n : nat) (c : st * list event) : st * list event :=
  match n with O => c | S n => match step u base env code c with Some c' => run u base env code n c' | None => c end end.
Lemma run_reaches u base env code n : forall c, reaches u base env code c (run u base env code n c).
Proof.
  induction n as [|n IH]; intros c; cbn [run]; [constructor|].
  destruct (step u base env code c) as [c'|] eqn:E; [|constructor]. econstructor; [exact E|apply IH].
Qed.
(** an x87 unit for which a number in a register is the number itself *)
Definition ex_fpu : fpu := Fpu (fun n v => quiet n v) (fun n x => x mod 256 ^ Z.of_nat n).
Lemma quiet_range n v : n = 4%nat \/ n = 8%nat -> 0 <= v < 256 ^ Z.of_nat n -> 0 <= quiet n v < 256 ^ Z.of_nat n.
Proof.
  intros Hn Hv. unfold quiet. cbv zeta. destruct (_ && _) eqn:Eb; [|exact Hv].
  apply andb_prop in Eb. destruct Eb as [E1 E2]. apply Z.ltb_lt in E1. apply negb_true_iff in E2.

  destruct Hn as [-> | -> ]; unfold mant in *; cbn [Nat.eqb] in *.
  - change (8 * Z.of_nat 4 - 1) with 31 in *. change (256 ^ Z.of_nat 4) with (2 ^ 31 * 2) in *.
    pose proof (Z_div_mod_eq_full v (2 ^ 31)). pose proof (Z.mod_pos_bound v (2 ^ 31) ltac:(reflexivity)) as M. set (w := v mod 2 ^ 31) in *.
    assert (D : 0 <= v / 2 ^ 31 <= 1). { split; [apply Z.div_pos; lia|]. apply Z.lt_succ_r. apply Z.div_lt_upper_bound; lia. }
    assert (Y : w + 2 ^ (23 - 1) < 2 ^ 31).
    { assert (Z.testbit w 22 = false) as T by exact E2. rewrite Z.testbit_odd, Z.shiftr_div_pow2 in T by lia.
      pose proof (Z_div_mod_eq_full w (2 ^ 22)) as Q1. pose proof (Z.mod_pos_bound w (2 ^ 22) ltac:(reflexivity)) as Q2.
      assert (w / 2 ^ 22 <> 511) by (intros C; rewrite C in T; discriminate T).
      assert (w / 2 ^ 22 < 512) by (apply Z.div_lt_upper_bound; lia). change (2 ^ (23 - 1)) with (2 ^ 22). change (2 ^ 31) with (2 ^ 22 * 512) in *. lia. }
    split; [nia|]. change (2 ^ 31) with 2147483648 in *. change (2 ^ (23 - 1)) with 4194304 in *. lia.
  - change (8 * Z.of_nat 8 - 1) with 63 in *. change (256 ^ Z.of_nat 8) with (2 ^ 63 * 2) in *.
    pose proof (Z_div_mod_eq_full v (2 ^ 63)). pose proof (Z.mod_pos_bound v (2 ^ 63) ltac:(reflexivity)) as M. set (w := v mod 2 ^ 63) in *.
    assert (D : 0 <= v / 2 ^ 63 <= 1). { split; [apply Z.div_pos; lia|]. apply Z.lt_succ_r. apply Z.div_lt_upper_bound; lia. }
    assert (Y : w + 2 ^ (52 - 1) < 2 ^ 63).
    { assert (Z.testbit w 51 = false) as T by exact E2. rewrite Z.testbit_odd, Z.shiftr_div_pow2 in T by lia.
      pose proof (Z_div_mod_eq_full w (2 ^ 51)) as Q1. pose proof (Z.mod_pos_bound w (2 ^ 51) ltac:(reflexivity)) as Q2.
      assert (w / 2 ^ 51 <> 4095) by (intros C; rewrite C in T; discriminate T).
      assert (w / 2 ^ 51 < 4096) by (apply Z.div_lt_upper_bound; lia). change (2 ^ (52 - 1)) with (2 ^ 51). change (2 ^ 63) with (2 ^ 51 * 4096) in *. lia. }
    split; [nia|]. change (2 ^ 63) with 9223372036854775808 in *. change (2 ^ (52 - 1)) with 2251799813685248 in *. lia.
Qed.
Lemma ex_fpu_ok : fpu_ok ex_fpu.
Proof.
  split.
  - intros n x. cbn [fstore ex_fpu]. apply Z.mod_pos_bound. apply Z.pow_pos_nonneg; lia.
  - intros n v Hn Hv. cbn [fstore fload ex_fpu]. apply Z.mod_small. apply quiet_range; assumption.
Qed.

(** the hooked function: int f(int, double, S) with an object S of 12 bytes that has a destructor (for MSVC) *)
Definition no_ret : passinfo := PassInfo 0 0 0 0 0 0 0.
Definition t_int : passinfo := PassInfo 4 PassType_Basic PassFlag_ByVal 0 0 0 0.
Definition t_double : passinfo := PassInfo 8 PassType_Float PassFlag_ByVal 0 0 0 0.
Definition t_object : passinfo := PassInfo 12 PassType_Object (Z.lor PassFlag_ByVal PassFlag_ODtor) 0 0 (2 ^ 26 + 512) 0.
Definition ex_ps : list passinfo := [t_int; t_double; t_object].
Definition ex_pks : list pkind := [PKind false 4 None; PKind true 8 None; PKind false 12 (Some (2 ^ 26 + 512))].
Definition hx_k : consts := Consts (2 ^ 20) (2 ^ 20 + 64) (2 ^ 21) (2 ^ 21 + 64) (-8) 5 (2 ^ 22) (2 ^ 22 + 8) (2 ^ 23) (2 ^ 23 + 8).
Definition words (l : list (Z * Z)) (m : Z -> Z) : Z -> Z := fold_left (fun m p => st4 m (fst p) (snd p)) l m.
(** the context at 2^25, a handler at 2^25 + 128, their vtables, the object at 2^27 *)
Definition hx_mem : Z -> Z :=
  words [(2 ^ 25, 2 ^ 25 + 64); (2 ^ 25 + 64, 2 ^ 26); (2 ^ 25 + 68, 2 ^ 26 + 16); (2 ^ 25 + 72, 2 ^ 26 + 32); (2 ^ 25 + 76, 2 ^ 26 + 48);
         (2 ^ 25 + 128, 2 ^ 25 + 192); (2 ^ 25 + 200, 2 ^ 26 + 64); (2 ^ 24 + 4, 2 ^ 27); (2 ^ 24 + 8, 2 ^ 27 + 512); (2 ^ 27 - 8, 2 ^ 27 + 256)] (fun x => x mod 7).
Definition hx_s : st := St (fun r => if r =? 4 then 2 ^ 24 else if r =? 1 then 2 ^ 27 else 9) [] true false false false hx_mem 0.
(** SetupHookLoop gives the original function and remembers where the variable cur is; one handler, which sets it to
    MRES_OVERRIDE and returns 42; the original function returns 7 *)
Definition answer (gcc : bool) (n : nat) (t : Z) (s : st) : (Z -> Z) * Z * Z :=
  if t =? 2 ^ 21 then (st4 (st4 (mm s) (marg gcc s 3) (2 ^ 26 + 80)) (2 ^ 28) (marg gcc s 6), 2 ^ 25, 36)
  else if t =? 2 ^ 21 + 64 then (mm s, 5, 4)
  else if t =? 2 ^ 26 then (mm s, if (n =? 1)%nat then 2 ^ 25 + 128 else 0, 0)
  else if t =? 2 ^ 26 + 16 then (mm s, 2 ^ 28 + 64, 0)
  else if t =? 2 ^ 26 + 32 then (mm s, 2 ^ 28 + 96, 0)
  else if t =? 2 ^ 26 + 48 then (mm s, 1, 0)
  else if t =? 2 ^ 26 + 64 then (st4 (mm s) (ld4 (mm s) (2 ^ 28)) OVERRIDE, 42, 24)
  else if t =? 2 ^ 26 + 80 then (mm s, 7, 24)
  else (mm s, 6, 0).
Definition hx_env (gcc : bool) (n : nat) (t : Z) (s : st) : st :=
  let '(m, a, pop) := answer gcc n t s in
  set_rg (set_rg (set_rg (set_rg (set_mm s m) EAX (w32 a)) ECX 1) EDX 2) ESP (w32 (rg s ESP + 4 + (if gcc then 0 else pop))).
Lemma words_bytes l : forall m, bytes_ok m -> bytes_ok (words l m).
Proof. induction l as [|p l IH]; intros m H; [exact H|]. apply IH. apply sto_bytes. exact H. Qed.
Lemma hx_env_wf gcc n t s : wf s -> wf (hx_env gcc n t s).
Proof.
  intros (W1 & W2). unfold hx_env.
  assert (M : bytes_ok (fst (fst (answer gcc n t s)))).
  { unfold answer. repeat match goal with |- context [if ?b then _ else _] => destruct b end; cbn [fst]; repeat apply sto_bytes; exact W2. }
  destruct (answer gcc n t s) as [[m a] pop]. cbn [fst] in M. split; [|exact M].
  intros r. cbn [set_rg rg set_mm]. unfold upd. destruct (r =? ESP); [apply w32_range|]. destruct (r =? EDX); [unfold W32; lia|].
  destruct (r =? ECX); [unfold W32; lia|]. destruct (r =? EAX); [apply w32_range|]. apply W1.
Qed.
Lemma hx_consts : consts_ok hx_k.
Proof. unfold consts_ok, int32_ok. cbn [hx_k k_phi k_sh k_setup k_end k_offs k_idx k_pi k_vfn k_vsn k_fmt]. lia. Qed.
Lemma hx_bytes : bytes_ok hx_mem.
Proof. apply words_bytes. intros x. pose proof (Z.mod_pos_bound x 7). lia. Qed.
Lemma hx_entry gcc : entry (hx_env gcc) hx_s.
Proof.
  split; [split|split; [reflexivity|split]].
  - intros r. cbn [hx_s rg]. unfold W32. destruct (r =? 4); [lia|]. destruct (r =? 1); lia.
  - exact hx_bytes.
  - cbn [hx_s rg ESP Z.eqb Pos.eqb]. unfold W32. lia.
  - intros n t s. apply hx_env_wf.
Qed.
Lemma hx_phi gcc vf pks rk : total pks < 2 ^ 15 -> 0 <= total pks -> (rsize rk < 5000)%nat -> phi_apart gcc vf pks rk hx_k hx_s.
Proof.
  intros H H0 Hr. unfold phi_apart, base0, depth. change (w32 (k_phi hx_k)) with (2 ^ 20). change (rg hx_s ESP) with (2 ^ 24). unfold W32. split; [lia|left; lia].
Qed.
Example C69_example : forall gcc, entry_ok (hx_env gcc) gcc CallConv_ThisCall hx_k t_int ex_ps false (RInt 4) ex_pks hx_s.
Proof.
  intros gcc. split; [apply hx_consts|]. split; [cbn; lia|]. split; [cbn; lia|]. split; [|split; [apply hx_entry|split; [reflexivity|split; [apply hx_phi; [vm_compute; reflexivity|vm_compute; discriminate|cbn; lia]|exact I]]]].
  split; [reflexivity|]. split; [reflexivity|]. split; [|split; [|reflexivity]].
  - split; [reflexivity|]. split; [right; split; reflexivity|]. right. split; [reflexivity|]. split; [reflexivity|]. split; [left; reflexivity|]. repeat split; try reflexivity. right. right. left. reflexivity.
  - unfold ex_ps, ex_pks. constructor; [split; [reflexivity|]|constructor; [split; [reflexivity|]|constructor; [split; [reflexivity|]|constructor]]].
    + right. split; [reflexivity|]. split; [reflexivity|]. split; [reflexivity|]. split; [reflexivity|]. left. repeat split; try reflexivity. right. right. left. reflexivity.
    + right. split; [reflexivity|]. split; [reflexivity|]. split; [reflexivity|]. split; [reflexivity|]. right. left. repeat split; try reflexivity. right. reflexivity.
    + right. split; [reflexivity|]. split; [reflexivity|]. split; [reflexivity|]. split; [reflexivity|]. right. right. split; [reflexivity|]. split; [reflexivity|]. split; [reflexivity|].
      split; [cbn; lia|]. cbn. split; [reflexivity|]. unfold int32_ok. lia.
Qed.
(** The run: SetupHookLoop, GetNext, the handler, GetOverrideRetPtr, GetNext, ShouldCallOrig, the original, GetNext,
    GetOverrideRetPtr, EndContext, the destructor of the third parameter; the result is 42. *)
Example C69_example_run : forall gcc, let code := hook_func gcc CallConv_ThisCall hx_k t_int ex_ps in
  let '(s, tr) := run ex_fpu 0 (hx_env gcc) code 400 (hx_s, []) in
  map e_target tr = [2 ^ 21; 2 ^ 26; 2 ^ 26 + 64; 2 ^ 26 + 16; 2 ^ 26; 2 ^ 26 + 48; 2 ^ 26 + 80; 2 ^ 26; 2 ^ 26 + 16; 2 ^ 21 + 64; 2 ^ 26 + 512] /\
  rg s EAX = 42 /\ rg s ESP = 2 ^ 24 /\ fetch code (pc s) <> None.
Proof. intros [|]; vm_compute; repeat split; discriminate. Qed.

(** ** A result in memory *)
(** the hooked function: T f(int, double, S) with an object T of 20 bytes; the caller gives the address 2^27 + 512 (GCC:
    before the object; MSVC: the only word before the parameters, or the second one with a format) *)
Lemma entry_mm env s m : entry env s -> bytes_ok m -> entry env (set_mm s m).
Proof. intros ((W1 & _) & H2 & H3 & H4) Hm. split; [split; [exact W1|exact Hm]|]. split; [exact H2|]. split; [exact H3|exact H4]. Qed.
Lemma phi_mm gcc vf pks rk k s m : phi_apart gcc vf pks rk k s -> phi_apart gcc vf pks rk k (set_mm s m).
Proof. unfold phi_apart, base0. cbn [set_mm rg]. auto. Qed.
Definition t_result : passinfo := PassInfo 20 PassType_Object (Z.lor PassFlag_ByVal PassFlag_RetMem) 0 0 0 0.
Definition rx_mem (gcc vf : bool) : Z -> Z :=
  words (if gcc then [(2 ^ 24 + 4, 2 ^ 27 + 512); (2 ^ 24 + 8, 2 ^ 27)] else if vf then [(2 ^ 24 + 4, 2 ^ 27); (2 ^ 24 + 8, 2 ^ 27 + 512)] else [(2 ^ 24 + 4, 2 ^ 27 + 512)]) hx_mem.
Definition rx_s (gcc vf : bool) : st := set_mm hx_s (rx_mem gcc vf).

Definition conv_of (vf : bool) : Z := if vf then Z.lor CallConv_ThisCall CallConv_HasVafmt else CallConv_ThisCall.
Example C69_object_example : forall gcc vf, entry_ok (hx_env gcc) gcc (conv_of vf) hx_k t_result ex_ps vf (RMem 20) ex_pks (rx_s gcc vf).
Proof.
  intros gcc vf. destruct (C69_example gcc) as (E1 & E2 & E3 & (_ & _ & _ & E4) & E5 & E6 & _).
  split; [exact E1|]. split; [exact E2|]. split; [exact E3|]. split; [|split; [|split; [|split]]].
  - split; [destruct vf; reflexivity|]. split; [destruct vf; reflexivity|]. split; [|exact E4].
    split; [reflexivity|]. split; [right; split; reflexivity|]. repeat split; try reflexivity; cbn; lia.
  - apply entry_mm; [exact E5|apply words_bytes; exact hx_bytes].
  - reflexivity.
  - apply phi_mm. apply hx_phi; [vm_compute; reflexivity|vm_compute; discriminate|cbn; lia].
  - destruct gcc, vf; vm_compute; (split; [reflexivity|right; discriminate]).
Qed.
(** an object of 8 bytes returned in eax and edx *)
Definition t_small : passinfo := PassInfo 8 PassType_Object (Z.lor PassFlag_ByVal PassFlag_RetReg) 0 0 0 0.
Example C69_small_example : forall gcc, entry_ok (hx_env gcc) gcc CallConv_ThisCall hx_k t_small ex_ps false (RInt 8) ex_pks hx_s.
Proof.
  intros gcc. destruct (C69_example gcc) as (E1 & E2 & E3 & (_ & _ & _ & E4) & E5 & E6 & _).
  split; [exact E1|]. split; [exact E2|]. split; [exact E3|]. split; [|split; [exact E5|split; [reflexivity|split; [|exact I]]]].
  - split; [reflexivity|]. split; [reflexivity|]. split; [|exact E4].
    split; [reflexivity|]. split; [right; split; reflexivity|]. right. split; [reflexivity|]. split; [reflexivity|]. split; [right; split; reflexivity|]. repeat split. right. right. right. reflexivity.
  - apply hx_phi; [vm_compute; reflexivity|vm_compute; discriminate|cbn; lia].
Qed.
(** The run: the handler puts 42 and 43 into the object, sets MRES_OVERRIDE, and gives back its address; the original puts
    7 there; the caller finds 42 and 43 at its address, which is in eax, too. *)
Definition rx_env (gcc : bool) (n : nat) (t : Z) (s : st) : st :=
  let p := arg s 0 in
  let '(m, a, pop) :=
    if t =? 2 ^ 26 + 64 then (st4 (st4 (st4 (mm s) (ld4 (mm s) (2 ^ 28)) OVERRIDE) p 42) (p + 16) 43, p, if gcc then 4 else 28)
    else if t =? 2 ^ 26 + 80 then (st4 (mm s) p 7, p, if gcc then 4 else 28)
    else let '(m, a, pop) := answer gcc n t s in (m, a, if gcc then 0 else pop) in
  set_rg (set_rg (set_rg (set_rg (set_mm s m) EAX (w32 a)) ECX 1) EDX 2) ESP (w32 (rg s ESP + 4 + pop)).
Example C69_object_run : forall gcc, let code := hook_func gcc CallConv_ThisCall hx_k t_result ex_ps in
  let '(s, tr) := run ex_fpu 0 (rx_env gcc) code 600 (rx_s gcc false, []) in
  map e_target tr = [2 ^ 21; 2 ^ 26; 2 ^ 26 + 64; 2 ^ 26 + 16; 2 ^ 26; 2 ^ 26 + 48; 2 ^ 26 + 80; 2 ^ 26; 2 ^ 26 + 16; 2 ^ 21 + 64; 2 ^ 26 + 512] /\
  rg s EAX = 2 ^ 27 + 512 /\ ld4 (mm s) (2 ^ 27 + 512) = 42 /\ ld4 (mm s) (2 ^ 27 + 512 + 16) = 43 /\ rg s ESP = 2 ^ 24 /\ fetch code (pc s) <> None.
Proof. intros [|]; vm_compute; repeat split; discriminate. Qed.

(** ** Objects passed by hidden reference *)
(** GCC passes an object with a destructor or copy constructor as the address of a temporary.  The handler must
    get the address of an object with the same contents.  The generated function copies the bytes that begin
    at the parameter's place on the stack, that is the address and whatever is behind it (PushObject, lines 367-439), and
    not the object at that address.  Here the parameter is an object of 12 bytes with a destructor and no
    copy constructor; with one, it is called with the same wrong source. *)
Definition t_hidden : passinfo := PassInfo 12 PassType_Object (Z.lor (Z.lor PassFlag_ByVal PassFlag_ODtor) PassFlag_ForcedByRef) 0 0 (2 ^ 26 + 512) 0.
Definition hidden_run (n : nat) : st * list event := run ex_fpu 0 (hx_env true) (hook_func true CallConv_ThisCall hx_k no_ret [t_hidden]) n (hx_s, []).
Theorem C69_object_refuted : exists u base env k p s0 s tr e,
  fpu_ok u /\ consts_ok k /\ entry env s0 /\ pc s0 = 0 /\ ForcedByRef p = true /\
  reaches u base env (hook_func true CallConv_ThisCall k no_ret [p]) (s0, []) (s, tr) /\
  In e tr /\ e_target e = 2 ^ 26 + 64 /\
  (forall j, 0 <= j < pi_size p -> mm (e_in e) (arg s0 1 + j) = mm s0 (arg s0 1 + j)) /\
  ld4 (mm (e_in e)) (arg (e_in e) 1) <> ld4 (mm s0) (arg s0 1) /\
  ld4 (mm (e_in e)) (arg (e_in e) 1) = arg s0 1.
Proof.
  exists ex_fpu, 0, (hx_env true), hx_k, t_hidden, hx_s, (fst (hidden_run 200)), (snd (hidden_run 200)), (nth 2 (snd (hidden_run 200)) (Ev 0 hx_s hx_s)).
  split; [apply ex_fpu_ok|]. split; [apply hx_consts|]. split; [apply hx_entry|]. split; [reflexivity|]. split; [reflexivity|].
  split; [rewrite <- surjective_pairing; apply run_reaches|].
  split; [apply nth_In; vm_compute; lia|]. split; [vm_compute; reflexivity|]. split; [|split; [vm_compute; discriminate|vm_compute; reflexivity]].
  intros j Hj. change (pi_size t_hidden) with 12 in Hj.
  assert (D : j = 0 \/ j = 1 \/ j = 2 \/ j = 3 \/ j = 4 \/ j = 5 \/ j = 6 \/ j = 7 \/ j = 8 \/ j = 9 \/ j = 10 \/ j = 11) by lia.
  repeat (destruct D as [-> |D]; [vm_compute; reflexivity|]). subst j. vm_compute. reflexivity.
Qed.
Print Assumptions C69_object_refuted.

(** ** Alignment *)
(** On Linux the stack pointer is a multiple of 16 before every call instruction (System V ABI, i386).  The generated
    function keeps this for the handlers, the original and destructors (part of C69_hookfunc_partial) but not
    for SetupHookLoop, EndContext and the functions of the context. *)
Definition aligned_calls (tr : list event) : Prop := Forall (fun e => (rg (e_in e) ESP + 4) mod 16 = 0) tr.
Theorem C69_alignment_refuted : exists u base env k s0 s tr,
  fpu_ok u /\ entry_ok env true CallConv_ThisCall k t_int ex_ps false (RInt 4) ex_pks s0 /\
  reaches u base env (hook_func true CallConv_ThisCall k t_int ex_ps) (s0, []) (s, tr) /\ ~ aligned_calls tr.
Proof.
  exists ex_fpu, 0, (hx_env true), hx_k, hx_s, (fst (run ex_fpu 0 (hx_env true) (hook_func true CallConv_ThisCall hx_k t_int ex_ps) 60 (hx_s, []))),
    (snd (run ex_fpu 0 (hx_env true) (hook_func true CallConv_ThisCall hx_k t_int ex_ps) 60 (hx_s, []))).
  split; [apply ex_fpu_ok|]. split; [apply C69_example|]. split; [rewrite <- surjective_pairing; apply run_reaches|].
  intros H. unfold aligned_calls in H. rewrite Forall_forall in H.
  set (tr := snd _) in H. specialize (H (nth 0 tr (Ev 0 hx_s hx_s))).
  assert (X : In (nth 0 tr (Ev 0 hx_s hx_s)) tr) by (apply nth_In; vm_compute; lia).
  specialize (H X). vm_compute in H. discriminate H.
Qed.
Print Assumptions C69_alignment_refuted.

(** ** Signalling NaNs *)
(** A floating point parameter is passed on through the x87 unit, which makes signalling NaNs quiet: handlers and the
    original function do not get the bytes the caller passed. *)
Definition nan_s : st := set_mm hx_s (words [(2 ^ 24 + 12, 1); (2 ^ 24 + 16, 2047 * 2 ^ 20)] hx_mem).
Definition nan_run : st * list event := run ex_fpu 0 (hx_env true) (hook_func true CallConv_ThisCall hx_k t_int ex_ps) 200 (nan_s, []).
Theorem C69_float_refuted : exists u base env k s0 s tr e,
  fpu_ok u /\ entry_ok env true CallConv_ThisCall k t_int ex_ps false (RInt 4) ex_pks s0 /\
  reaches u base env (hook_func true CallConv_ThisCall k t_int ex_ps) (s0, []) (s, tr) /\ In e tr /\ e_target e = 2 ^ 26 + 64 /\
  ld (mm (e_in e)) (rg (e_in e) ESP + 12) 8 <> ld (mm s0) (rg s0 ESP + 12) 8.
Proof.
  exists ex_fpu, 0, (hx_env true), hx_k, nan_s, (fst nan_run), (snd nan_run), (nth 2 (snd nan_run) (Ev 0 hx_s hx_s)).
  split; [apply ex_fpu_ok|]. split.
  - destruct (C69_example true) as (E1 & E2 & E3 & E4 & E5 & E6 & E7 & E8). split; [exact E1|]. split; [exact E2|]. split; [exact E3|]. split; [exact E4|].
    split; [apply entry_mm; [exact E5|apply words_bytes; exact hx_bytes]|]. split; [exact E6|]. split; [apply phi_mm; exact E7|exact I].
  - split; [rewrite <- surjective_pairing; apply run_reaches|]. split; [apply nth_In; vm_compute; lia|]. split; [vm_compute; reflexivity|vm_compute; discriminate].
Qed.
Print Assumptions C69_float_refuted.

(** ** Vtables more than 128 bytes before the address of the object *)
(** The vtable pointer is read with Mov_Reg_Rm_DispAuto (line 1278), which writes a displacement below -128 as one byte
    (C67_mov_disp_refuted): SetupHookLoop gets the address of another function. *)
Definition far_k : consts := Consts (2 ^ 20) (2 ^ 20 + 64) (2 ^ 21) (2 ^ 21 + 64) (-200) 5 (2 ^ 22) (2 ^ 22 + 8) (2 ^ 23) (2 ^ 23 + 8).
Definition far_run : st * list event := run ex_fpu 0 (hx_env true) (hook_func true CallConv_ThisCall far_k t_int ex_ps) 60 (hx_s, []).
Theorem C69_offset_refuted : exists u base env k s0 s tr e,
  fpu_ok u /\ consts_ok k /\ k_offs k = -200 /\ 0 <= k_idx k < 2 ^ 28 /\ cls CallConv_ThisCall t_int ex_ps false (RInt 4) ex_pks /\ entry env s0 /\ pc s0 = 0 /\ phi_apart true false ex_pks (RInt 4) k s0 /\
  reaches u base env (hook_func true CallConv_ThisCall k t_int ex_ps) (s0, []) (s, tr) /\ hd_error tr = Some e /\ e_target e = k_setup k /\
  marg true (e_in e) 1 <> w32 (ld4 (mm s0) (w32 (arg s0 0 + k_offs k)) + 4 * k_idx k).
Proof.
  exists ex_fpu, 0, (hx_env true), far_k, hx_s, (fst far_run), (snd far_run), (nth 0 (snd far_run) (Ev 0 hx_s hx_s)).
  destruct (C69_example true) as (E1 & E2 & E3 & E4 & E5 & E6 & E7 & E8).
  split; [apply ex_fpu_ok|]. split; [unfold consts_ok, int32_ok; cbn [far_k k_phi k_sh k_setup k_end k_offs k_idx k_pi k_vfn k_vsn k_fmt]; lia|].
  split; [reflexivity|]. split; [cbn; lia|]. split; [exact E4|]. split; [exact E5|]. split; [reflexivity|]. split; [split; apply E7|].
  split; [rewrite <- surjective_pairing; apply run_reaches|]. split; [vm_compute; reflexivity|]. split; [vm_compute; reflexivity|vm_compute; discriminate].
Qed.
Print Assumptions C69_offset_refuted.
