(** C63: the hook function of a hook manager generated for x86-64 (MSVC). *)
From Coq Require Import List ZArith Bool Lia.
From Verif Require Import TrampModel ProtoModel GenModel Asm64Model Asm64Spec Asm64Proofs Mach64 Mach64Proofs Mach64Mem Jit64Model Jit64Spec Jit64Base Jit64PubProofs Jit64HookSpec Jit64HookList Jit64Run Jit64Frame Jit64Steps Jit64Blocks Jit64Loop Jit64Orig Jit64Ends Jit64Epi.
Import ListNotations.
Local Open Scope Z_scope.
Notation length := List.length.

(** The generated bytes on a processor, from the entry of the function, with any contents of registers
    and memory, for any prototype with up to 2^16 parameters and a result that is void, a reference, an
    integer, a floating point number or an object of up to 2^16 bytes that is returned in memory and has
    no constructors, destructor or assignment operator.  The functions called (SetupHookLoop, GetNext, the handlers, the
    original, ...) may do anything but keep the nonvolatile registers and the frame.  Then there are
    addresses on the stack for the variables such that execution follows the protocol of Jit64HookSpec.v:
    it makes those calls, in that order, with those arguments and with those values in the variables,
    for as long as one likes (L calls) or until it reaches the return instruction with the stack pointer
    of the entry, the nonvolatile registers and the return address unchanged and the result the
    protocol demands; an object has been copied to the address the caller has passed.  (Broken:
    GetOverrideRetPtr or GetOrigRetPtr has returned an address in the frame of the function.)

    The protocol is the one of the macros but for one difference ([false]), see C63_prev_refuted. *)
(** a parameter, from its description: PassType_Float (2) not passed by reference (bit 1) is in a floating point register;
    an object (3) passed by value (bit 0) with a destructor (bit 2) is destroyed by the function *)
Definition kind_of (p : passinfo) : pkind :=
  PKind ((pi_type p =? 2) && negb (Z.testbit (pi_flags p) 1))
        (if (pi_type p =? 3) && Z.testbit (pi_flags p) 0 && Z.testbit (pi_flags p) 2 then Some (pi_dtor p) else None).
Lemma has_bit f n : 0 <= n -> has f (2 ^ n) = Z.testbit f n.
Proof.
  intros N. unfold has. destruct (Z.eqb_spec (Z.land f (2 ^ n)) 0) as [E|E]; cbn [negb].
  - assert (B : Z.testbit (Z.land f (2 ^ n)) n = false) by (rewrite E; apply Z.testbit_0_l). rewrite Z.land_spec, Z.pow2_bits_true, andb_true_r in B by exact N. auto.
  - destruct (Z.testbit f n) eqn:B; [reflexivity|]. exfalso. apply E. apply Z.bits_inj'. intros m Hm. rewrite Z.land_spec, Z.testbit_0_l, Z.pow2_bits_eqb by exact N.
    destruct (Z.eqb_spec n m) as [<-|]; [rewrite B; reflexivity|apply andb_false_r].
Qed.
Lemma kind_of_eq p : kind_of p = pk_of p.
Proof.
  unfold kind_of, pk_of, is_float, needs_dtor. rewrite <- (has_bit _ 0), <- (has_bit _ 1), <- (has_bit _ 2) by discriminate.
  change (2 ^ 0) with PassFlag_ByVal. change (2 ^ 1) with PassFlag_ByRef. change (2 ^ 2) with PassFlag_ODtor. change 2 with PassType_Float at 1. change 3 with PassType_Object.
  f_equal. destruct (pi_type p =? PassType_Object), (has (pi_flags p) PassFlag_ByVal), (has (pi_flags p) PassFlag_ODtor); reflexivity.
Qed.
Lemma kinds_eq ps : map kind_of ps = map pk_of ps.
Proof. apply map_ext, kind_of_eq. Qed.
Definition follows (right : bool) (k : consts) (r : passinfo) (ps : list passinfo) (rk : rkind) (s0 : st) : Prop :=
  let h := iface_of k in let pks := map kind_of ps in
  exists v low, separate pks rk s0 v /\ rg s0 RSP - depth pks rk <= low /\
  forall base env L, conforming pks rk s0 v low env ->
  exists tr s o,
    reaches base env (hook_func k r ps) (s0, []) (s, tr) /\
    protocol h pks rk s0 v low right tr s o /\
    match o with
    | Done _ => at_ret (hook_func k r ps) s /\ rg s RSP = rg s0 RSP /\ saved s0 s /\
                ld8 (mm s) (rg s RSP) = ld8 (mm s0) (rg s0 RSP)
    | Cut => (L <= length tr)%nat
    | Broken => True
    end.
Definition entry_ok (k : consts) (r : passinfo) (ps : list passinfo) (rk : rkind) (s0 : st) : Prop :=
  consts_ok k /\ ret_class r rk /\ Forall param_ok ps /\ Z.of_nat (length ps) <= 2 ^ 16 /\
  wf s0 /\ aligned s0 /\ 2 ^ 20 <= rg s0 RSP <= W64 - 2 ^ 20 /\ pc s0 = 0 /\ target_ok (map kind_of ps) rk s0.

Theorem C63_hookfunc_partial : forall k r ps rk s0, entry_ok k r ps rk s0 -> follows false k r ps rk s0.
Proof.
  intros k r ps rk s0 (Hk & Hc & Hp & Hl & Hw & Ha & Hs & Hpc & Ht). unfold follows. cbv zeta. rewrite kinds_eq in *. exists (the_vars rk (rg s0 RSP)), (rg s0 RSP - fs_of rk).
  assert (Hn : Z.of_nat (length (map pk_of ps)) <= 2 ^ 16) by (rewrite map_length; exact Hl).
  pose proof (ret_class_n _ _ Hc) as Hr.
  split; [eapply (separate_vars _ _ _ (fs_of rk)); first [assumption|reflexivity]|].
  split; [pose proof (depth_ge (map pk_of ps) rk (fs_of rk) Hn Hr eq_refl); lia|]. intros base env L He.
  assert (X : setting k r ps rk s0 (rg s0 RSP) base env) by (constructor; auto).
  destruct (run_hook _ _ _ _ _ _ _ _ X L Hpc) as (tr & s & o & R & P & O). exists tr, s, o. split; [exact R|]. split; [exact P|].
  destruct o as [m| |]; [|exact O|exact O]. destruct O as (O1 & O2 & O3 & O4). split; [exact O1|]. split; [exact O2|]. split; [exact O3|].
  rewrite O2. apply ld8_ext; [lia|lia|]. exact O4.
Qed.
Print Assumptions C63_hookfunc_partial.

(** ** A handler never learns the result of the handler before it *)
Fixpoint run (base : Z) (env : nat -> Z -> st -> st) (code : list Z) (n : nat) (c : st * list event) : st * list event :=
  match n with O => c | S n => match step base env code c with Some c' => run base env code n c' | None => c end end.
Lemma run_reaches base env code n : forall c, reaches base env code c (run base env code n c).
Proof.
  induction n as [|n IH]; intros c; cbn [run]; [constructor|].
  destruct (step base env code c) as [c'|] eqn:E; [|constructor]. econstructor; [exact E|apply IH].
Qed.
Lemma step_prefix base env code c c' : step base env code c = Some c' -> exists l, snd c' = snd c ++ l.
Proof.
  destruct c as [s tr]. unfold step. destruct (fetch code (pc s)) as [[i p]|]; [|discriminate].
  destruct i; intros H; try (destruct (exec1 _ _); [|discriminate]; inversion H; exists []; cbn [snd]; rewrite app_nil_r; reflexivity).
  destruct (rd64 s o); [|discriminate]. inversion H. eexists. reflexivity.
Qed.
Lemma reaches_prefix base env code c c' : reaches base env code c c' -> exists l, snd c' = snd c ++ l.
Proof.
  induction 1 as [c|c c1 c2 S _ [l IH]]; [exists []; rewrite app_nil_r; reflexivity|].
  destruct (step_prefix _ _ _ _ _ S) as [l1 E]. exists (l1 ++ l). rewrite IH, E, app_assoc. reflexivity.
Qed.
(** two runs from the same state: one is a part of the other *)
Lemma reaches_linear base env code c c1 c2 : reaches base env code c c1 -> reaches base env code c c2 ->
  reaches base env code c1 c2 \/ reaches base env code c2 c1.
Proof.
  intros H1. revert c2. induction H1 as [c|c d c1 S H1 IH]; intros c2 H2; [left; exact H2|].
  inversion H2 as [|? d' ? S2 H2']; subst; [right; econstructor; eassumption|].
  rewrite S in S2. inversion S2; subst d'. apply IH. exact H2'.
Qed.
Lemma first_events base env code c c1 c2 n : reaches base env code c c1 -> reaches base env code c c2 ->
  (n <= length (snd c1))%nat -> (n <= length (snd c2))%nat -> firstn n (snd c1) = firstn n (snd c2).
Proof.
  intros H1 H2 N1 N2. destruct (reaches_linear _ _ _ _ _ _ H1 H2) as [H|H]; apply reaches_prefix in H; destruct H as [l ->];
    rewrite firstn_app; [replace (n - length (snd c1))%nat with 0%nat by lia|replace (n - length (snd c2))%nat with 0%nat by lia];
    cbn [firstn]; rewrite app_nil_r; reflexivity.
Qed.

Definition no_ret : passinfo := PassInfo 0 0 0 0 0 0 0.
Definition hx_k : consts := Consts (2 ^ 41) (2 ^ 42) (2 ^ 43) (2 ^ 43 + 64) (-8) 5 (2 ^ 44) (2 ^ 44 + 8) 2 1 2 3 4 5.
Definition hx_sp : Z := 2 ^ 40 + 8.
Definition hx_s : st := St (fun r => if r =? 4 then hx_sp else if r =? 1 then 2 ^ 45 else 9) (fun _ => 3) true false false (fun x => x mod 7) 0.
(** SetupHookLoop returns a context, GetNext two handlers, of which the first sets its result to MRES_HANDLED *)
Definition hx_env (n : nat) (t : Z) (s : st) : st :=
  match n with
  | 0 => set_rg s RAX (2 ^ 46)
  | 1 | 3 => set_rg s RAX (2 ^ 47)
  | 2 => set_mm s (sto (mm s) (hx_sp - 40) 4 1)
  | _ => set_rg s RAX 0
  end%nat.
Lemma bounds (lo x hi : Z) : (lo <=? x) && (x <? hi) = true -> lo <= x < hi.
Proof. intros H. apply andb_prop in H. destruct H as [H1 H2]. apply Z.leb_le in H1. apply Z.ltb_lt in H2. lia. Qed.
Lemma hx_wf : wf hx_s.
Proof.
  split; [|split].
  - intros r. cbn [hx_s rg]. destruct (r =? 4); [|destruct (r =? 1)]; apply bounds; reflexivity.
  - intros x. apply bounds; reflexivity.
  - intros x. cbn [hx_s mm]. pose proof (Z.mod_pos_bound x 7). lia.
Qed.
Lemma hx_consts : consts_ok hx_k.
Proof. unfold consts_ok, uint64_ok, int32_ok; repeat split; try (apply Z.leb_le; reflexivity); try (apply Z.ltb_lt; reflexivity). Qed.
Lemma hx_entry : entry_ok hx_k no_ret [] RVoid hx_s.
Proof.
  split; [apply hx_consts|]. split; [split; [left; reflexivity|split; [apply bounds; reflexivity|split; reflexivity]]|].
  split; [constructor|]. split; [apply Z.leb_le; reflexivity|]. split; [apply hx_wf|]. split; [reflexivity|].
  split; [split; apply Z.leb_le; reflexivity|]. split; [reflexivity|exact Logic.I].
Qed.

Lemma hx_conforming v low : a_cur v = hx_sp - 40 -> conforming [] RVoid hx_s v low hx_env.
Proof.
  intros Ec n t s Hw. destruct Hw as (W1 & W2 & W3).
  assert (A : forall x, 0 <= x < W64 -> wf (set_rg s RAX x) /\ saved s (set_rg s RAX x) /\ (forall y, own [] RVoid hx_s v y -> low <= y -> mm (set_rg s RAX x) y = mm s y)).
  { intros x Hx. split; [split; [|split; assumption]|split; [|reflexivity]].
    - intros r. cbn [rg set_rg]. unfold upd. destruct (r =? RAX); auto.
    - intros r Hr. cbn [rg set_rg]. apply upd_diff. intros ->. cbn [nonvolatile In] in Hr. unfold RAX, RBX, RBP, RSI, RDI in Hr. lia. }
  destruct n as [|[|[|[|n]]]]; cbn [hx_env]; try (apply A, bounds; reflexivity).
  split; [split; [exact W1|split; [exact W2|]]|split; [intros r _; reflexivity|]].
  - intros x. apply sto_bytes. exact W3.
  - intros x [_ Hx] _. cbn [mm set_mm]. apply sto_out; [discriminate| |].
    + cbn. discriminate.
    + intros C. apply Hx. unfold shared, areas. apply Exists_exists. exists (a_cur v, 4). split; [cbn [app In]; auto|]. unfold inside. cbn [fst snd]. rewrite Ec. exact C.
Qed.
Definition hx_run (env : nat -> Z -> st -> st) : st * list event := run 0 env (hook_func hx_k no_ret []) 200 (hx_s, []).
Definition hx_ev (env : nat -> Z -> st -> st) (i : nat) : event := nth i (snd (hx_run env)) (Ev 0 hx_s hx_s).
Lemma hx_reaches env : reaches 0 env (hook_func hx_k no_ret []) (hx_s, []) (hx_run env).
Proof. exact (run_reaches 0 env (hook_func hx_k no_ret []) 200 (hx_s, [])). Qed.
Opaque hx_run.
Lemma hx_same env s tr i e : reaches 0 env (hook_func hx_k no_ret []) (hx_s, []) (s, tr) ->
  nth_error tr i = Some e -> (i < length (snd (hx_run env)))%nat -> e = hx_ev env i.
Proof.
  intros R E Hi. pose proof (hx_reaches env) as R2.
  assert (Hi2 : (i < length tr)%nat) by (apply nth_error_Some; rewrite E; discriminate).
  pose proof (first_events _ _ _ _ _ _ (S i) R R2 ltac:(cbn [snd]; lia) ltac:(lia)) as F. cbn [snd] in F.
  unfold hx_ev. rewrite <- (firstn_skipn (S i) tr) in E. rewrite F in E. rewrite <- (firstn_skipn (S i) (snd (hx_run env))).
  assert (L : length (firstn (S i) (snd (hx_run env))) = S i) by (apply firstn_length_le; lia).
  rewrite nth_error_app1 in E by (rewrite L; lia). rewrite app_nth1 by (rewrite L; lia). symmetry. apply nth_error_nth. exact E.
Qed.

(** what the protocol of the macros says about [prev] in the calls of two handlers *)
Lemma two_handlers h s0 v low ctx m tr o : separate [] RVoid s0 v -> hooks h [] RVoid s0 v low true ctx m tr o ->
  (o = Cut /\ (length tr < 4)%nat) \/ (exists e, nth_error tr 0 = Some e /\ rax e = 0) \/ (exists e, nth_error tr 2 = Some e /\ rax e = 0) \/
  exists f1 e2 f2, nth_error tr 1 = Some f1 /\ nth_error tr 2 = Some e2 /\ nth_error tr 3 = Some f2 /\
    mm (e_in e2) (a_prev v) = after_handler v true (mm (e_out f1)) (a_prev v) /\
    mm (e_in f2) (a_prev v) = before_handler v true (mm (e_out e2)) (a_prev v).
Proof.
  intros S H. assert (P : ~ own [] RVoid s0 v (a_prev v)).
  { intros [_ C]. apply C. unfold shared, areas. apply Exists_exists. exists (a_prev v, 4). split; [cbn [app In]; auto|]. unfold inside. cbn [fst snd]. lia. }
  assert (G : forall n m0 e Q, call [] RVoid s0 v low n m0 e Q -> mm (e_in e) (a_prev v) = m0 (a_prev v)).
  { intros n m0 e Q (_ & _ & m1 & A1 & A2 & _). rewrite (A2 _ P), (A1 _ P). reflexivity. }
  inversion H as [|m1 e C1 R1|m1 e f tr1 o1 C1 R1 C2 C3 C4 H2|m1 e f g tr1 o1 C1 R1 C2 C3 C4|m1 e f g C1 R1 C2 C3 C4]; subst.
  - left. split; [reflexivity|cbn; lia].
  - right. left. exists e. auto.
  - inversion H2 as [|m2 e2 D1 S1|m2 e2 f2 tr2 o2 D1 S1 D2 D3 D4 H3|m2 e2 f2 g2 tr2 o2 D1 S1 D2 D3 D4|m2 e2 f2 g2 D1 S1 D2 D3 D4]; subst.
    + left. split; [reflexivity|cbn; lia].
    + right. right. left. exists e2. auto.
    + right. right. right. exists f, e2, f2. split; [reflexivity|]. split; [reflexivity|]. split; [reflexivity|]. split; [apply (G _ _ _ _ D1)|apply (G _ _ _ _ D2)].
    + destruct D4 as [D4 _]. contradiction.
    + destruct D4 as [D4 _]. contradiction.
  - destruct C4 as [C4 _]. contradiction.
  - destruct C4 as [C4 _]. contradiction.
Qed.
(** the beginning of a run *)
Lemma protocol_head h ps rk s0 v low tr s o : protocol h ps rk s0 v low true tr s o -> o <> Cut \/ (0 < length tr)%nat ->
  exists e t1 t2 o1, tr = e :: t1 ++ t2 /\ setup h ps rk s0 v low e /\ (hooks h ps rk s0 v low true (rax e) (set_prev v (mm (e_out e)) IGNORED) t1 o1) /\ (o1 = Cut -> o = Cut /\ t2 = []).
Proof.
  intros P H. inversion P; subst.
  - cbn in H. destruct H as [H|H]; [contradiction|lia].
  - exists e1, tr0, [], o. rewrite app_nil_r. auto.
  - exists e1, tr1, (tr2 ++ tr3), (Done m1). split; [reflexivity|]. split; [assumption|]. split; [assumption|discriminate].
  - exists e1, tr1, (tr2 ++ tr3 ++ tr4 ++ e5 :: tr6), (Done m1). split; [reflexivity|]. split; [assumption|]. split; [assumption|discriminate].
  - exists e1, tr1, (tr2 ++ tr3 ++ tr4 ++ e5 :: tr6), (Done m1). split; [reflexivity|]. split; [assumption|]. split; [assumption|discriminate].
Qed.

(** With the protocol of the macros the statement is false: META_RESULT_PREVIOUS is always MRES_IGNORED in
    handlers called by a generated function, whatever the handler before has set. *)
Theorem C63_prev_refuted : exists k r ps rk s0, entry_ok k r ps rk s0 /\ ~ follows true k r ps rk s0.
Proof.
  exists hx_k, no_ret, [], RVoid, hx_s. split; [apply hx_entry|]. intros (v & low & Sep & _ & F). cbn [map] in *.
  (* where the variables are *)
  assert (V : a_status v = hx_sp - 24 /\ a_prev v = hx_sp - 32 /\ a_cur v = hx_sp - 40).
  { destruct (F 0 (fun _ _ s => s) 1%nat) as (tr & s & o & R & P & O).
    { intros n t s Hw. split; [exact Hw|]. split; [intros r _; reflexivity|reflexivity]. }
    destruct (protocol_head _ _ _ _ _ _ _ _ _ P) as (e & t1 & t2 & o1 & -> & (_ & _ & m & _ & _ & S) & _).
    { destruct o; [left; discriminate|right; exact O|left; discriminate]. }
    rewrite (hx_same _ _ _ 0%nat e R eq_refl) in S by (apply Nat.ltb_lt; vm_compute; reflexivity).
    destruct S as (_ & _ & _ & _ & _ & _ & S5 & S6 & S7 & _). rewrite <- S5, <- S6, <- S7. repeat split; vm_compute; reflexivity. }
  destruct V as (Vs & Vp & Vc).
  destruct (F 0 hx_env 5%nat (hx_conforming _ _ Vc)) as (tr & s & o & R & P & O).
  destruct (protocol_head _ _ _ _ _ _ _ _ _ P) as (e & t1 & t2 & o1 & -> & _ & H & Ho).
  { destruct o; [left; discriminate|right; lia|left; discriminate]. }
  assert (At : forall i e', nth_error t1 i = Some e' -> (S i < length (snd (hx_run hx_env)))%nat -> e' = hx_ev hx_env (S i)).
  { intros i e' E Hi. eapply hx_same; [exact R| |exact Hi]. cbn [nth_error]. rewrite nth_error_app1; [exact E|]. apply nth_error_Some. rewrite E. discriminate. }
  assert (N : (5 <=? length (snd (hx_run hx_env)))%nat = true) by (vm_compute; reflexivity). apply Nat.leb_le in N.
  destruct (two_handlers _ _ _ _ _ _ _ _ Sep H) as [[-> Hl]|[(e' & E & Z)|[(e' & E & Z)|(f1 & e2 & f2 & E1 & E2 & E3 & G1 & G2)]]].
  - destruct (Ho eq_refl) as [-> ->]. cbn [length] in O. rewrite app_nil_r in O. lia.
  - rewrite (At _ _ E) in Z by lia. vm_compute in Z. discriminate Z.
  - rewrite (At _ _ E) in Z by lia. vm_compute in Z. discriminate Z.
  - rewrite (At _ _ E1), (At _ _ E2) in G1 by lia. rewrite Vp in G1. unfold after_handler, set_prev, status, cur in G1. cbv zeta in G1.
    rewrite Vs, Vp, Vc in G1. vm_compute in G1. discriminate G1.
Qed.
Print Assumptions C63_prev_refuted.

(** ** Non-vacuity: a function int f(int, float, object, double, object &, int), one handler that
    overrides the result with 77 and an original that returns 55 *)
Definition t_int : passinfo := PassInfo 4 PassType_Basic PassFlag_ByVal 0 0 0 0.
Definition t_float : passinfo := PassInfo 4 PassType_Float PassFlag_ByVal 0 0 0 0.
Definition t_double : passinfo := PassInfo 8 PassType_Float PassFlag_ByVal 0 0 0 0.
Definition t_obj : passinfo := PassInfo 24 PassType_Object (Z.lor PassFlag_ByVal PassFlag_ODtor) 0 0 (2 ^ 33) 0.
Definition t_ref : passinfo := PassInfo 24 PassType_Object PassFlag_ByRef 0 0 (2 ^ 33) 0.
Definition ex_ps : list passinfo := [t_int; t_float; t_obj; t_double; t_ref; t_int].
Definition hy_env (n : nat) (t : Z) (s : st) : st :=
  match n with
  | 0 => set_rg (set_mm s (sto (mm s) (hx_sp - 16) 8 (2 ^ 35))) RAX (2 ^ 46)     (* SetupHookLoop *)
  | 1 => set_rg s RAX (2 ^ 47)                                                   (* GetNext *)
  | 2 => set_rg (set_mm s (sto (mm s) (hx_sp - 40) 4 OVERRIDE)) RAX 77           (* the handler *)
  | 3 | 8 => set_rg s RAX (hx_sp - 112)                                          (* GetOverrideRetPtr *)
  | 5 => set_rg s RAX 1                                                          (* ShouldCallOrig *)
  | 6 => set_rg s RAX 55                                                         (* the original *)
  | _ => set_rg s RAX 0
  end%nat.
(** functions that set rax and write to the shared variables *)
Lemma set_rax rk low s s' x : wf s' -> (forall r, rg s' r = rg s r) -> (forall y, own (map pk_of ex_ps) rk hx_s (the_vars rk hx_sp) y -> mm s' y = mm s y) -> 0 <= x < W64 ->
  wf (set_rg s' RAX x) /\ saved s (set_rg s' RAX x) /\ (forall y, own (map pk_of ex_ps) rk hx_s (the_vars rk hx_sp) y -> low <= y -> mm (set_rg s' RAX x) y = mm s y).
Proof.
  intros (W1 & W2 & W3) E M Hx. split; [split; [|split; assumption]|split; [|intros y Hy _; apply M, Hy]].
  - intros r. cbn [rg set_rg]. unfold upd. destruct (r =? RAX); auto.
  - intros r Hr. cbn [rg set_rg]. rewrite upd_diff, E; [reflexivity|]. intros ->. cbn [nonvolatile In] in Hr. unfold RAX, RBX, RBP, RSI, RDI in Hr. lia.
Qed.
Lemma set_var rk s m a k x : bytes_ok m -> (forall y, own (map pk_of ex_ps) rk hx_s (the_vars rk hx_sp) y -> m y = mm s y) ->
  In (a, Z.of_nat k) (areas rk (the_vars rk hx_sp)) -> 0 <= a -> a + Z.of_nat k <= W64 ->
  bytes_ok (sto m a k x) /\ (forall y, own (map pk_of ex_ps) rk hx_s (the_vars rk hx_sp) y -> sto m a k x y = mm s y).
Proof.
  intros Hb Hm Hin H0 H1. split; [intros y; apply sto_bytes; exact Hb|].
  intros y Hy. rewrite <- Hm by exact Hy. destruct Hy as [_ Hy]. apply sto_out; [exact H0|exact H1|]. intros C. apply Hy. unfold shared. apply Exists_exists. exists (a, Z.of_nat k). split; [exact Hin|exact C].
Qed.
Ltac var_in := cbn; repeat (first [left; reflexivity|right]).
Example C63_example : entry_ok hx_k t_int ex_ps (RInt 4) hx_s /\
  conforming (map pk_of ex_ps) (RInt 4) hx_s (the_vars (RInt 4) hx_sp) (hx_sp - 144) hy_env /\
  conforming [] RVoid hx_s (the_vars RVoid hx_sp) (hx_sp - 64) hx_env.
Proof.
  split; [|split; [|apply hx_conforming; reflexivity]].
  - split; [apply hx_consts|]. split; [split; [right; split; reflexivity|split; [apply bounds; reflexivity|]]|].
    + split; [reflexivity|]. split; [discriminate|]. right. repeat split; try reflexivity; lia.
    + split; [repeat (constructor; [apply bounds; reflexivity|]); constructor|]. split; [apply Z.leb_le; reflexivity|]. split; [apply hx_wf|]. split; [reflexivity|].
      split; [split; apply Z.leb_le; reflexivity|]. split; [reflexivity|exact Logic.I].
  - intros n t s Hw. pose proof Hw as (W1 & W2 & W3).
    destruct n as [|[|[|[|[|[|[|[|[|n]]]]]]]]]; cbn [hy_env]; try (apply set_rax; [exact Hw|reflexivity|reflexivity|apply bounds; reflexivity]).
    + destruct (set_var (RInt 4) s (mm s) (hx_sp - 16) 8 (2 ^ 35)) as [M1 M2]; [exact W3|reflexivity|var_in|apply Z.leb_le; reflexivity|apply Z.leb_le; reflexivity|].
      apply set_rax; [split; [exact W1|split; [exact W2|exact M1]]|reflexivity|exact M2|apply bounds; reflexivity].
    + destruct (set_var (RInt 4) s (mm s) (hx_sp - 40) 4 OVERRIDE) as [M1 M2]; [exact W3|reflexivity|var_in|apply Z.leb_le; reflexivity|apply Z.leb_le; reflexivity|].
      apply set_rax; [split; [exact W1|split; [exact W2|exact M1]]|reflexivity|exact M2|apply bounds; reflexivity].
Qed.
(** The run: eleven calls, the last of which destroys the third parameter; the result is 77. *)
Example C63_example_run :
  let '(s, tr) := run 0 hy_env (hook_func hx_k t_int ex_ps) 300 (hx_s, []) in
  length tr = 11%nat /\ w32 (rg s RAX) = 77 /\ fetch (hook_func hx_k t_int ex_ps) (pc s) <> None /\ rg s RSP = hx_sp /\
  map e_target [nth 6 tr (Ev 0 s s); nth 10 tr (Ev 0 s s)] = [2 ^ 35; 2 ^ 33] /\ arg (e_in (nth 10 tr (Ev 0 s s))) 0 = arg hx_s 3.
Proof. vm_compute. repeat split; discriminate. Qed.

(** A function with the same parameters that returns an object of 20 bytes; the handler and the original
    write their results to the address they find in rdx. *)
Definition t_plain : passinfo := PassInfo 20 PassType_Object (Z.lor PassFlag_ByVal PassFlag_RetMem) 0 0 0 0.
Definition ho_env (n : nat) (t : Z) (s : st) : st :=
  match n with
  | 0 => set_rg (set_mm s (sto (mm s) (hx_sp - 16) 8 (2 ^ 35))) RAX (2 ^ 46)                                            (* SetupHookLoop *)
  | 1 => set_rg s RAX (2 ^ 47)                                                                                          (* GetNext *)
  | 2 => set_rg (set_mm s (sto (sto (mm s) (hx_sp - 40) 4 OVERRIDE) (hx_sp - 80 - 3 * 32) 20 (2 ^ 150 + 77))) RAX 12   (* the handler *)
  | 3 | 8 => set_rg s RAX (hx_sp - 80 - 2 * 32)                                                                         (* GetOverrideRetPtr *)
  | 5 => set_rg s RAX 1                                                                                                 (* ShouldCallOrig *)
  | 6 => set_rg (set_mm s (sto (mm s) (hx_sp - 80 - 32) 20 55)) RAX 12                                                  (* the original *)
  | _ => set_rg s RAX 0
  end%nat.
Example C63_object_example : entry_ok hx_k t_plain ex_ps (RMem 20) hx_s /\
  conforming (map pk_of ex_ps) (RMem 20) hx_s (the_vars (RMem 20) hx_sp) (hx_sp - 208) ho_env.
Proof.
  split.
  - split; [apply hx_consts|]. split; [split; [right; split; reflexivity|split; [apply bounds; reflexivity|]]|].
    + do 8 (split; [reflexivity|]). split; apply Z.leb_le; reflexivity.
    + split; [repeat (constructor; [apply bounds; reflexivity|]); constructor|]. split; [apply Z.leb_le; reflexivity|]. split; [apply hx_wf|]. split; [reflexivity|].
      split; [split; apply Z.leb_le; reflexivity|]. split; [reflexivity|]. split; [apply Z.leb_le; reflexivity|left; apply Z.leb_le; reflexivity].
  - intros n t s Hw. pose proof Hw as (W1 & W2 & W3).
    destruct n as [|[|[|[|[|[|[|[|[|n]]]]]]]]]; cbn [ho_env]; try (apply set_rax; [exact Hw|reflexivity|reflexivity|apply bounds; reflexivity]).
    + destruct (set_var (RMem 20) s (mm s) (hx_sp - 16) 8 (2 ^ 35)) as [M1 M2]; [exact W3|reflexivity|var_in|apply Z.leb_le; reflexivity|apply Z.leb_le; reflexivity|].
      apply set_rax; [split; [exact W1|split; [exact W2|exact M1]]|reflexivity|exact M2|apply bounds; reflexivity].
    + destruct (set_var (RMem 20) s (mm s) (hx_sp - 40) 4 OVERRIDE) as [M1 M2]; [exact W3|reflexivity|var_in|apply Z.leb_le; reflexivity|apply Z.leb_le; reflexivity|].
      destruct (set_var (RMem 20) s _ (hx_sp - 80 - 3 * 32) 20 (2 ^ 150 + 77) M1 M2) as [M3 M4]; [var_in|apply Z.leb_le; reflexivity|apply Z.leb_le; reflexivity|].
      apply set_rax; [split; [exact W1|split; [exact W2|exact M3]]|reflexivity|exact M4|apply bounds; reflexivity].
    + destruct (set_var (RMem 20) s (mm s) (hx_sp - 80 - 32) 20 55) as [M1 M2]; [exact W3|reflexivity|var_in|apply Z.leb_le; reflexivity|apply Z.leb_le; reflexivity|].
      apply set_rax; [split; [exact W1|split; [exact W2|exact M1]]|reflexivity|exact M2|apply bounds; reflexivity].
Qed.
(** The run: the caller's object (at 9) gets the handler's value, and rax its address; handler and original
    have been given plugin_ret and orig_ret, and the fourth parameter from the caller. *)
Example C63_object_example_run :
  let '(s, tr) := run 0 ho_env (hook_func hx_k t_plain ex_ps) 400 (hx_s, []) in
  length tr = 11%nat /\ rg s RAX = 9 /\ ld (mm s) 9 20 = 2 ^ 150 + 77 /\ fetch (hook_func hx_k t_plain ex_ps) (pc s) <> None /\ rg s RSP = hx_sp /\
  arg (e_in (nth 2 tr (Ev 0 s s))) 1 = hx_sp - 80 - 3 * 32 /\ arg (e_in (nth 6 tr (Ev 0 s s))) 1 = hx_sp - 80 - 32 /\
  arg (e_in (nth 6 tr (Ev 0 s s))) 4 = arg hx_s 4 /\ arg (e_in (nth 10 tr (Ev 0 s s))) 0 = arg hx_s 4.
Proof. vm_compute. repeat split; discriminate. Qed.

(** ** Objects as results *)
(** A function that returns an object in memory has to return the address of the object, its hidden
    second argument, in rax.  The generated function loads it and then calls the destructor of its own
    variables of that type, which may leave anything in rax (lines 490-511).  Here the called functions
    only change rax, and memory not at all. *)
Definition t_result : passinfo := PassInfo 24 PassType_Object (Z.lor PassFlag_ByVal PassFlag_RetMem) (2 ^ 33) (2 ^ 33 + 8) (2 ^ 33 + 16) (2 ^ 33 + 24).
Definition hz_env (n : nat) (t : Z) (s : st) : st := if t =? pi_dtor t_result then set_rg s RAX 0 else set_rg s RAX (if (n =? 4)%nat || (n =? 7)%nat then 0 else 2 ^ 46).
Definition hz_run : st * list event := run 0 hz_env (hook_func hx_k t_result []) 300 (hx_s, []).
Theorem C63_object_result_refuted : exists k r ps s0 base env s tr,
  ret_mem r = true /\ consts_ok k /\ wf s0 /\ aligned s0 /\ pc s0 = 0 /\
  (forall n t s, wf s -> wf (env n t s) /\ saved s (env n t s) /\ mm (env n t s) = mm s) /\
  reaches base env (hook_func k r ps) (s0, []) (s, tr) /\ at_ret (hook_func k r ps) s /\ rg s RAX <> arg s0 1.
Proof.
  exists hx_k, t_result, [], hx_s, 0, hz_env, (fst hz_run), (snd hz_run).
  split; [reflexivity|]. split; [apply hx_consts|]. split; [apply hx_wf|]. split; [reflexivity|]. split; [reflexivity|]. split; [|split; [|split]].
  - intros n t s (W1 & W2 & W3).
    assert (A : forall x, 0 <= x < W64 -> wf (set_rg s RAX x) /\ saved s (set_rg s RAX x) /\ mm (set_rg s RAX x) = mm s).
    { intros x Hx. split; [split; [|split; assumption]|split; [|reflexivity]].
      - intros r. cbn [rg set_rg]. unfold upd. destruct (r =? RAX); auto.
      - intros r Hr. cbn [rg set_rg]. apply upd_diff. intros ->. cbn [nonvolatile In] in Hr. unfold RAX, RBX, RBP, RSI, RDI in Hr. lia. }
    unfold hz_env. destruct (t =? pi_dtor t_result); [|destruct (_ || _)]; apply A, bounds; reflexivity.
  - rewrite <- surjective_pairing. exact (run_reaches 0 hz_env (hook_func hx_k t_result []) 300 (hx_s, [])).
  - eexists. vm_compute. reflexivity.
  - vm_compute. discriminate.
Qed.
Print Assumptions C63_object_result_refuted.

(** An object may also be returned in rax (PassFlag_RetReg: AutoDetectRetType, 1256-1275, keeps it if the
    caller has set it).  SaveReturnValue does nothing for such a result (1059-1062: an SH_ASSERT only, which
    is empty in release builds, sourcehook.h:70), but DoReturn (1143-1144) takes rax from orig_ret: without
    any handler, the value the original function has returned is lost. *)
Definition t_reg : passinfo := PassInfo 8 PassType_Object (Z.lor PassFlag_ByVal PassFlag_RetReg) 0 0 0 0.
Definition hr_env (n : nat) (t : Z) (s : st) : st :=
  match n with
  | 0 => set_rg (set_mm s (sto (mm s) (hx_sp - 16) 8 (2 ^ 35))) RAX (2 ^ 46)   (* SetupHookLoop *)
  | 2 => set_rg s RAX 1                                                        (* ShouldCallOrig *)
  | 3 => set_rg s RAX 77                                                       (* the original *)
  | 5 => set_rg s RAX (hx_sp - 96)                                             (* GetOrigRetPtr *)
  | _ => set_rg s RAX 0                                                        (* GetNext: no handlers *)
  end%nat.
Definition hr_run : st * list event := run 0 hr_env (hook_func hx_k t_reg []) 300 (hx_s, []).
Theorem C63_register_object_refuted : exists k r ps s0 base env s tr setup orig ptr,
  pi_type r = PassType_Object /\ has (pi_flags r) PassFlag_RetReg = true /\ consts_ok k /\ wf s0 /\ aligned s0 /\ pc s0 = 0 /\
  (forall n t s, wf s -> wf (env n t s) /\ saved s (env n t s) /\ (forall x, ~ rg s0 RSP - 16 <= x < rg s0 RSP - 8 -> mm (env n t s) x = mm s x)) /\
  reaches base env (hook_func k r ps) (s0, []) (s, tr) /\ at_ret (hook_func k r ps) s /\
  (* the run contains the call of SetupHookLoop, which is given the address of orig_ret, of the original, and of GetOrigRetPtr, which returns that address *)
  nth_error tr 0 = Some setup /\ nth_error tr 3 = Some orig /\ nth_error tr 5 = Some ptr /\
  e_target orig = ld8 (mm (e_out setup)) (arg (e_in setup) 4) /\ rax ptr = arg (e_in setup) 8 /\
  (* the result is not the one of the original *)
  rg s RAX <> rax orig.
Proof.
  exists hx_k, t_reg, [], hx_s, 0, hr_env, (fst hr_run), (snd hr_run), (nth 0 (snd hr_run) (Ev 0 hx_s hx_s)), (nth 3 (snd hr_run) (Ev 0 hx_s hx_s)), (nth 5 (snd hr_run) (Ev 0 hx_s hx_s)).
  assert (N : forall i, (i < length (snd hr_run))%nat -> nth_error (snd hr_run) i = Some (nth i (snd hr_run) (Ev 0 hx_s hx_s))) by (intros i Hi; apply nth_error_nth'; exact Hi).
  assert (L : (6 <=? length (snd hr_run))%nat = true) by (vm_compute; reflexivity). apply Nat.leb_le in L.
  split; [reflexivity|]. split; [reflexivity|]. split; [apply hx_consts|]. split; [apply hx_wf|]. split; [reflexivity|]. split; [reflexivity|]. split; [|split; [|split]].
  - intros n t s (W1 & W2 & W3).
    assert (A : forall m x, bytes_ok m -> (forall y, ~ hx_sp - 16 <= y < hx_sp - 8 -> m y = mm s y) -> 0 <= x < W64 ->
      wf (set_rg (set_mm s m) RAX x) /\ saved s (set_rg (set_mm s m) RAX x) /\ (forall y, ~ hx_sp - 16 <= y < hx_sp - 8 -> mm (set_rg (set_mm s m) RAX x) y = mm s y)).
    { intros m x Hb Hm Hx. split; [split; [|split; assumption]|split; [|exact Hm]].
      - intros r. cbn [rg set_rg set_mm]. unfold upd. destruct (r =? RAX); auto.
      - intros r Hr. cbn [rg set_rg set_mm]. apply upd_diff. intros ->. cbn [nonvolatile In] in Hr. unfold RAX, RBX, RBP, RSI, RDI in Hr. lia. }
    assert (A0 : forall x, 0 <= x < W64 -> wf (set_rg s RAX x) /\ saved s (set_rg s RAX x) /\ (forall y, ~ hx_sp - 16 <= y < hx_sp - 8 -> mm (set_rg s RAX x) y = mm s y)).
    { intros x Hx. exact (A (mm s) x W3 (fun y _ => eq_refl) Hx). }
    destruct n as [|[|[|[|[|[|n]]]]]]; cbn [hr_env]; try (apply A0, bounds; reflexivity).
    apply A; [intros y; apply sto_bytes; exact W3| |apply bounds; reflexivity]. intros y Hy. apply sto_out; [discriminate|discriminate|]. intros C. apply Hy. change (Z.of_nat 8) with 8 in C. lia.
  - rewrite <- surjective_pairing. exact (run_reaches 0 hr_env (hook_func hx_k t_reg []) 300 (hx_s, [])).
  - eexists. vm_compute. reflexivity.
  - split; [apply N; lia|]. split; [apply N; lia|]. split; [apply N; lia|]. split; [vm_compute; reflexivity|]. split; [vm_compute; reflexivity|]. vm_compute. discriminate.
Qed.
Print Assumptions C63_register_object_refuted.
