(** The end of the hook function, and all of it. *)
From Coq Require Import List ZArith Bool Lia.
From Verif Require Import TrampModel ProtoModel GenModel Asm64Model Asm64Spec Asm64Proofs Mach64 Mach64Proofs Mach64Mem Jit64Model Jit64Spec Jit64Base Jit64PubProofs Jit64HookSpec Jit64HookList Jit64Run Jit64Frame Jit64Steps Jit64Blocks Jit64Loop Jit64Orig Jit64Ends.
Import ListNotations.
Local Open Scope Z_scope.
Notation length := List.length.


Lemma s64s x : 0 <= x < 2 ^ 32 -> s64 x = x.
Proof. intros H. unfold s64. destruct (Z.ltb_spec x (2 ^ 63)); lia. Qed.
Section Epi.
Variables (k : consts) (r : passinfo) (ps : list passinfo) (rk : rkind) (s0 : st) (B : Z).
Notation fs := (fs_of rk).
Notation pks := (map pk_of ps).
Variables (base : Z) (env : nat -> Z -> st -> st).
Hypothesis X : setting k r ps rk s0 B base env.
Let HB := x_sp _ _ _ _ _ _ _ _ X.
Let Hwf := x_wf _ _ _ _ _ _ _ _ X.
Let Hsp := x_range _ _ _ _ _ _ _ _ X.
Let Hlen := x_len _ _ _ _ _ _ _ _ X.
Let Hcl := x_cl _ _ _ _ _ _ _ _ X.
Let Hk := x_k _ _ _ _ _ _ _ _ X.
Let Hpar := x_par _ _ _ _ _ _ _ _ X.
Notation I := (Jit64Frame.I s0 fs B).
Notation J := (Jit64Blocks.J ps rk s0 B).
Notation R := (Jit64Blocks.R base env).
Notation Own := (own pks rk s0 (the_vars rk B)).
Notation Agree := (agree pks rk s0 (the_vars rk B)).
Notation Call := (call pks rk s0 (the_vars rk B) (B - fs)).
Notation Fixed := (fixed pks rk B).
Notation h := (iface_of k).
Notation stat := (status (the_vars rk B)).
Ltac kx := pose proof Hk as (? & ? & ? & ? & ? & ? & ? & ? & ? & ? & ? & ? & ? & ? & ?).
Ltac aok := clear Hcl Hpar; kx; rok.
Ltac basics := pose proof (depthge _ _ _ _ _ _ _ _ X) as HD; pose proof (Hfsr _ _ _ _ _ _ _ _ X) as HF; pose proof W64v as HW; pose proof (Hfacts _ _ _ _ _ _ _ _ X) as HG; pose proof (fs_c _ _ _ _ _ _ _ _ X) as HFC.

(** ** The pointer to the result *)
Definition saved_ptr (p : Z) (m : Z -> Z) : Prop := rk <> RVoid -> ld8 m (B - 72) = p.
Lemma saved_ptr_called c s t e s' p : called pks rk s0 fs B c s t e s' -> saved_ptr p (mm s) -> saved_ptr p (mm s').
Proof.
  intros C H Hv. basics. rewrite <- (H Hv). eapply ld8_called; [exact C|lia|lia|]. intros x Hx. eapply own_ret; [exact X|exact Hv|lia].
Qed.
Lemma R_ret pre s tr ctx mu (Q : st -> list event -> Prop) : I 0 s -> J ctx (mm s) -> Agree mu (mm s) ->
  (forall tr' m p s', ret_ptr h pks rk s0 (the_vars rk B) (B - fs) ctx mu tr' m p -> 0 <= p < W64 -> I 0 s' -> J ctx (mm s') -> Agree m (mm s') -> saved_ptr p (mm s') -> Q s' (tr ++ tr')) ->
  R pre (PrepareReturn k r) s tr Q.
Proof.
  intros HI HJ HA K. basics. unfold PrepareReturn. destruct (rkind_eq_void rk) as [Hv|Hv].
  - rewrite (ret_class_size _ _ Hcl), Hv. apply R_nil. rewrite <- (app_nil_r tr). apply (K [] mu 0); [|lia|exact HI|exact HJ|exact HA|intros C; contradiction].
    unfold ret_ptr. apply match_void; [auto|contradiction].
  - assert (Ez : (pi_size r =? 0) = false) by (rewrite (ret_class_size _ _ Hcl); destruct rk; [contradiction|reflexivity|reflexivity|reflexivity]). rewrite Ez.
    destruct (vars_nonvoid _ _ Hcl Hv) as (Vp & _). rewrite Vp. uv.
    pose proof (ctx_range _ _ _ _ _ _ _ HI HJ) as HC. pose proof (j_ctx _ _ _ _ _ _ HJ) as Ec. pose proof (w0 _ HC) as E0.
    destruct (stat8 _ _ _ _ _ _ _ _ X _ _ _ _ HI HJ HA) as [Es Rs].
    change (?a1 :: ?a2 :: ?a3 :: ?a4 :: ?a5 :: ?a6 :: ?a7 :: ?a8 :: ?a9 :: ?a10 :: ?a11 :: ?a12 :: ?l) with ([a1; a2; a3; a4; a5; a6; a7; a8; a9; a10; a11] ++ [a12] ++ l).
    apply R_app, R_block; [aok|reflexivity|]. go. go. go. go. go. go. go.
    eapply ok_any; [cbn [meaning exec1 rd64 alu]; sst; uregs; change (w64 2) with 2; reflexivity|].
    match goal with |- ok _ (flags ?t _ _) _ => set (s1 := t) in * end.
    destruct (cmp_lt s1 (stat mu) 2 ltac:(lia) ltac:(lia)) as [F1 _]. cbv zeta in F1.
    match type of F1 with context [sf ?f0] => set (f := f0) in F1 |- * end. rewrite (s64s 2) in F1 by lia. rewrite (s64s (stat mu)) in F1 by lia. assert (If : I 0 f) by (apply I_set_fl; assumption).
    assert (Mf : mm f = mm s) by reflexivity.
    assert (Af : rg f RAX = ld8 (mm s) (w64 (ld8 (mm s) ctx + i_orig k * 8))) by (unfold f, s1; sst; uregs; reflexivity).
    assert (Vf : rg f R8 = ld8 (mm s) (w64 (ld8 (mm s) ctx + i_over k * 8))) by (unfold f, s1; sst; uregs; reflexivity).
    clearbody f.
    set (ix := if 2 <=? stat mu then i_over k else i_orig k).
    eapply ok_any; [cbn [meaning exec1 rd64 holds]; rewrite F1; reflexivity|].
    match goal with |- ok _ ?t _ => set (g := t) in * end.
    assert (Ig : I 0 g). { unfold g. destruct (negb _); [|exact If]. apply I_set_rg; [exact If|reflexivity|apply (I_rg _ _ _ _ _ _ If)]. }
    assert (Mg : mm g = mm s) by (unfold g; destruct (negb _); exact Mf).
    assert (Ag : rg g RAX = ld8 (mm s) (w64 (ld8 (mm s) ctx + ix * 8))).
    { unfold g, ix. destruct (Z.ltb_spec (stat mu) 2), (Z.leb_spec 2 (stat mu)); try lia; cbn [negb]; sst; uregs; assumption. }
    clearbody g. rewrite <- Mg in *. clear Mf If Af Vf F1 f.
    go. go. go. apply R_app. eapply R_call; [exact X|split; [discriminate|reflexivity]|eassumption|lia|reflexivity|lia|].
    sst. uregs. rewrite Ag. intros e s' C. destruct (after_called _ _ _ _ _ _ _ _ X _ _ _ _ _ ctx C HJ) as (HJ' & HA' & HI').
    pose proof (cl_rax _ _ _ _ _ _ _ _ _ _ C) as Er. pose proof (I_rg _ _ _ _ _ RAX HI') as Rr. rewrite Er in Rr.
    apply R_block; [rok|reflexivity|]. go. go. apply ok_nil. nb. apply (K [e] (mm (e_out e)) (rax e)).
    + unfold ret_ptr. apply match_void; [contradiction|]. intros _. exists e. split; [reflexivity|]. split; [|auto].
      replace (if OVERRIDE <=? stat mu then x_over h else x_orig h) with ix by reflexivity.
      eapply virt_called; [exact C|lia|reflexivity|exact HA|reflexivity].
    + exact Rr.
    + assumption.
    + sst. eapply J_kept; [exact X|exact HJ'|]. apply kept_st8; [lia|lia|]. intros x Hx D. unfold fixed in D. lia.
    + sst. eapply agree_trans; [exact HA'|]. apply agree_own; [lia|lia|]. intros x Hx. eapply own_ret; [exact X|exact Hv|lia].
    + intros _. sst. apply ld8_st8_same; lia.
Qed.

(** ** EndContext *)
Lemma R_end pre s tr ctx mu p (Q : st -> list event -> Prop) : I 0 s -> J ctx (mm s) -> Agree mu (mm s) -> saved_ptr p (mm s) ->
  (forall e s', end_context h pks rk s0 (the_vars rk B) (B - fs) ctx mu e -> I 0 s' -> J ctx (mm s') -> Agree (mm (e_out e)) (mm s') -> saved_ptr p (mm s') -> Q s' (tr ++ [e])) ->
  R pre (CallEndContext k) s tr Q.
Proof.
  intros HI HJ HA Hp K. basics. unfold CallEndContext. uv. pose proof (j_ctx _ _ _ _ _ _ HJ) as Ec.
  assert (U1 : uint64_ok (k_sh k)) by (kx; assumption). assert (U2 : uint64_ok (k_end k)) by (kx; assumption).
  change ([?a1; ?a2; ?a3; ?a4; ?a5; ?a6]) with ([a1; a2; a3; a4] ++ [a5] ++ [a6]).
  apply R_app, R_block; [aok|reflexivity|]. go. go. go. go. go. apply R_app.
  eapply R_call; [exact X|split; [discriminate|reflexivity]|eassumption|lia|reflexivity|lia|]. sst. uregs. intros e s' C.
  destruct (after_called _ _ _ _ _ _ _ _ X _ _ _ _ _ ctx C HJ) as (HJ' & HA' & HI').
  apply R_block; [rok|reflexivity|]. go. go. apply K.
  - eapply call_of; [exact C|cbn; lia|exact HA|]. cbn [iface_of c_end c_sh]. split; [apply (cl_target _ _ _ _ _ _ _ _ _ _ C)|].
    split; rewrite (cl_reg _ _ _ _ _ _ _ _ _ _ C) by lia; cbn [nth]; sst; uregs; reflexivity.
  - assumption.
  - exact HJ'.
  - exact HA'.
  - sst. eapply saved_ptr_called; [exact C|exact Hp].
Qed.

(** ** Destructors of parameters *)
Lemma R_dtors l : forall i jx pre s tr ctx mu p (Q : st -> list event -> Prop), jx = S (hidden rk + i) -> (forall j q, nth_error l j = Some q -> nth_error ps (i + j) = Some q) ->
  I 0 s -> J ctx (mm s) -> Agree mu (mm s) -> saved_ptr p (mm s) ->
  (forall tr' m s', destroy pks rk s0 (the_vars rk B) (B - fs) (map pk_of l) jx mu tr' m -> I 0 s' -> J ctx (mm s') -> Agree m (mm s') -> saved_ptr p (mm s') -> Q s' (tr ++ tr')) ->
  R pre (param_dtors l jx) s tr Q.
Proof.
  induction l as [|a l IH]; intros i jx pre s tr ctx mu p Q Ej Hl HI HJ HA Hp K; cbn [param_dtors].
  - apply R_nil. rewrite <- (app_nil_r tr). eapply K; [constructor|exact HI|exact HJ|exact HA|exact Hp].
  - basics. assert (Ha : nth_error ps i = Some a) by (rewrite <- (Nat.add_0_r i); apply Hl; reflexivity).
    assert (Hl' : forall j q, nth_error l j = Some q -> nth_error ps (S i + j) = Some q) by (intros j q Hq; rewrite Nat.add_succ_comm; apply Hl; exact Hq).
    destruct (needs_dtor a) eqn:N.
    + assert (U : uint64_ok (pi_dtor a)) by (eapply (proj1 (Forall_forall _ _) Hpar), nth_error_In; exact Ha).
      assert (Li : Z.of_nat i < Z.of_nat (length ps)) by (eapply nth_lt; exact Ha). pose proof Hlen as HL.
      assert (Eh : ld8 (mm s) (B + (8 + Z.of_nat jx * 8)) = arg s0 jx).
      { rewrite Ej. assert (Hi : nth_error pks i = Some (pk_of a)) by (apply map_nth_error; exact Ha). rewrite <- (Z.add_comm _ 8).
        rewrite (home_eq _ _ _ _ _ _ _ _ HJ Hi). cbn [pk_of pk_float]. unfold needs_dtor in N. apply andb_prop in N. destruct N as [N _]. apply andb_prop in N. destruct N as [N _].
        apply Z.eqb_eq in N. unfold is_float. rewrite N. reflexivity. }
      change ([ASubRI RSP 40] ++ [?a1; ?a2; ?a3] ++ [?a4] ++ ?r) with ([ASubRI RSP 40; a1; a2] ++ [a3] ++ [a4] ++ r).
      apply R_app, R_block; [rok|reflexivity|]. go. go. go. go. apply R_app.
      eapply R_call; [exact X|split; [discriminate|reflexivity]|eassumption|lia|reflexivity|lia|]. sst. uregs. intros e s' C.
      destruct (after_called _ _ _ _ _ _ _ _ X _ _ _ _ _ ctx C HJ) as (HJ' & HA' & HI').
      apply R_app, R_block; [rok|reflexivity|]. go. go.
      eapply (IH (S i) (S jx)); [rewrite Ej; lia|exact Hl'|eassumption|exact HJ'|exact HA'|sst; eapply saved_ptr_called; [exact C|exact Hp]|].
      intros tr' m s2 D I2 J2 A2 S2. rewrite <- app_assoc. apply (K (e :: tr') m s2); [|exact I2|exact J2|exact A2|exact S2].
      cbn [map]. eapply d_dtor; [cbn [pk_of pk_dtor]; rewrite N; reflexivity| |exact D].
      eapply call_of; [exact C|cbn; lia|exact HA|]. split; [apply (cl_target _ _ _ _ _ _ _ _ _ _ C)|].
      rewrite (cl_reg _ _ _ _ _ _ _ _ _ _ C) by lia; cbn [nth]; sst; uregs; reflexivity.
    + cbn [app]. change (ASubRI RSP 40 :: AAddRI RSP 40 :: ?r) with ([ASubRI RSP 40; AAddRI RSP 40] ++ r).
      apply R_app, R_block; [rok|reflexivity|]. go. go. go.
      eapply (IH (S i) (S jx)); [rewrite Ej; lia|exact Hl'|eassumption|exact HJ|exact HA|exact Hp|].
      intros tr' m s2 D I2 J2 A2 S2. apply (K tr' m s2); [|exact I2|exact J2|exact A2|exact S2].
      cbn [map]. eapply d_plain; [cbn [pk_of pk_dtor]; rewrite N; reflexivity|exact D].
Qed.

(** ** The value and the return *)
Lemma source_dec p : {source pks rk s0 (the_vars rk B) p} + {~ source pks rk s0 (the_vars rk B) p}.
Proof.
  assert (N : forall n, {forall x, p <= x < p + Z.of_nat n -> ~ Own x} + {~ (forall x, p <= x < p + Z.of_nat n -> ~ Own x)}) by (intros n; eapply none_dec; exact X).
  assert (D : forall a n, {apart p a n} + {~ apart p a n}) by (intros a n; unfold apart; destruct (Z_le_dec (p + Z.of_nat n) a), (Z_le_dec (a + Z.of_nat n) p); [left; lia|left; lia|left; lia|right; lia]).
  unfold source. clear - N D. generalize dependent (own pks rk s0 (the_vars rk B)). intros O N. destruct rk as [|n|n|n]; [left; exact Logic.I|left; exact Logic.I|left; exact Logic.I|].
  destruct (Z_le_dec (p + Z.of_nat n) W64); [|right; tauto]. destruct (N n); [|right; tauto]. destruct (D (arg s0 1) n); [left; tauto|right; tauto].
Qed.
Lemma mem_facts p : 0 < pn rk -> source pks rk s0 (the_vars rk B) p -> pn rk = Z.of_nat (rsize rk) /\
  p + Z.of_nat (rsize rk) <= W64 /\ (forall x, p <= x < p + Z.of_nat (rsize rk) -> ~ Own x) /\ (p + Z.of_nat (rsize rk) <= arg s0 1 \/ arg s0 1 + Z.of_nat (rsize rk) <= p) /\
  arg s0 1 + Z.of_nat (rsize rk) <= W64 /\ (arg s0 1 + Z.of_nat (rsize rk) <= B - depth pks rk \/ B + 8 + 8 * slots pks rk <= arg s0 1) /\
  (forall m, delivered rk s0 m p = sto m (arg s0 1) (rsize rk) (ld m p (rsize rk))) /\ (forall s', rg s' RAX = arg s0 1 -> returned rk s0 s' p) /\
  has (pi_flags r) PassFlag_ByRef = false /\ pi_type r = PassType_Object /\ has (pi_flags r) PassFlag_RetReg = false /\ pi_copy r = 0 /\ pi_size r = Z.of_nat (rsize rk) /\ 1 <= Z.of_nat (rsize rk) <= 2 ^ 16.
Proof.
  intros Hp. pose proof (x_target _ _ _ _ _ _ _ _ X) as T. destruct Hcl as (_ & _ & C). unfold by_ref in C.
  unfold pn, source, apart, target_ok in *. rewrite HB in T. revert T C. destruct rk as [|n|n|n]; [discriminate Hp|discriminate Hp|discriminate Hp|]. cbn [rsize].
  intros (T1 & T2) (_ & C1 & C2 & _ & C3 & _ & C4 & C5 & C6) (H1 & H2 & H3). unfold delivered, returned. repeat (split; [first [assumption|reflexivity|auto]|]). all: lia.
Qed.
Lemma ok_do_return ctx s mu p (Q : st -> Prop) : I 0 s -> J ctx (mm s) -> Agree mu (mm s) -> saved_ptr p (mm s) -> 0 <= p < W64 -> source pks rk s0 (the_vars rk B) p ->
  (forall s', I 0 s' -> J ctx (mm s') -> Agree (delivered rk s0 mu p) (mm s') -> returned rk s0 s' p -> Q s') -> ok (DoReturn r) s Q.
Proof.
  intros HI HJ HA Hp Rp Hso K. basics. unfold DoReturn. destruct (rkind_eq_void rk) as [Hv|Hv].
  - rewrite (ret_class_size _ _ Hcl), Hv. apply ok_nil. apply K; [exact HI|exact HJ| |].
    + unfold delivered. clear - Hv HA. destruct rk; [exact HA|discriminate Hv|discriminate Hv|discriminate Hv].
    + unfold returned. clear - Hv. destruct rk; [exact Logic.I|discriminate Hv|discriminate Hv|discriminate Hv].
  - assert (Ez : (pi_size r =? 0) = false) by (rewrite (ret_class_size _ _ Hcl); destruct rk; [contradiction|reflexivity|reflexivity|reflexivity]). rewrite Ez.
    destruct (vars_nonvoid _ _ Hcl Hv) as (Vp & _). rewrite Vp. specialize (Hp Hv). pose proof (w0 _ Rp) as E0.
    rewrite (ret_mem_eq _ _ _ _ _ _ _ _ X). destruct (Z.ltb_spec 0 (pn rk)) as [Hm|Hm].
    + destruct (mem_facts p Hm Hso) as (N1 & S1 & S2 & S3 & T1 & T2 & Ed & Er & Hb & Ht & Hg & Hc & Hs & Hr).
      rewrite Hb, Ht, Hg, Hc. cbn [Z.eqb Pos.eqb orb andb negb PassType_Basic PassType_Float PassType_Object app].
      assert (V : v_memret_ptr r = -80) by (unfold v_memret_ptr; rewrite Ez; reflexivity). rewrite V.
      assert (Rt : 0 <= arg s0 1 < W64) by (change (arg s0 1) with (rg s0 RDX); apply Hwf).
      assert (Hu : uint64_ok (pi_size r)) by apply Hcl.
      go. apply ok_app. match goal with H0 : I 0 ?t |- ok _ ?t _ => set (s1 := t) in *; rename H0 into I1 end.
      assert (M1 : mm s1 = mm s) by reflexivity. assert (R1 : rg s1 R8 = p) by (unfold s1; sst; apply upd_same). clearbody s1. rewrite <- M1 in HJ, HA. clear HI M1 Hp s.
      assert (D2 : p + Z.of_nat (rsize rk) <= B - fs - 24 \/ B - fs <= p).
      { destruct (Z_le_dec (p + Z.of_nat (rsize rk)) (B - fs - 24)) as [L|L]; [auto|]. destruct (Z_le_dec (B - fs) p) as [L2|L2]; [auto|]. exfalso.
        apply (S2 (Z.max p (B - fs - 24))); [lia|]. apply (ownbelow _ _ _ _ _ _ _ _ X). lia. }
      pose proof (j_mem _ _ _ _ _ _ HJ Hm) as Em. pose proof (slots_ge pks rk (Hps _ _ _ _ _ _ _ _ X) (Hn _ _ _ _ _ _ _ _ X)) as SG.
      destruct (ok_copy_ret _ _ _ _ _ _ _ _ X s1 (AMovRM RDI (Rm RBP (-80))) (AMovRR RSI R8) (arg s0 1) p (rsize rk) I1 Hu Hs ltac:(lia)) as (s2 & E2 & I2 & M2).
      * intros s' E _ Mx. cbn [meaning mem rm_reg rm_disp exec1 rd64 ea wr64]. rewrite E, (wB _ Hsp) by lia. nb. rewrite <- Em. rewrite (ld8_ext (mm s') (mm s1)); [reflexivity|lia|lia|]. intros x Hx. apply Mx. lia.
      * intros s' _ E. cbn [meaning exec1 rd64 wr64]. rewrite E, R1. reflexivity.
      * lia.
      * lia.
      * lia.
      * lia.
      * lia.
      * lia.
      * lia.
      * exists s2. split; [exact E2|]. clear E2.
        assert (El : ld (mm s1) p (rsize rk) = ld mu p (rsize rk)) by (eapply agree_ld; [exact HA|lia|lia|exact S2]).
        assert (J2 : J ctx (mm s2)).
        { eapply J_kept; [exact X|exact HJ|]. intros x Hx. destruct (ownfixed _ _ _ _ _ _ _ _ X x Hx). rewrite M2 by lia. apply sto_out; [lia|lia|]. unfold fixed in Hx. lia. }
        assert (A2 : Agree (delivered rk s0 mu p) (mm s2)).
        { rewrite Ed, <- El. intros x Hx. rewrite M2.
          - destruct (Z_lt_dec x (arg s0 1)) as [L|L]; [rewrite !sto_out by lia; apply HA, Hx|].
            destruct (Z_lt_dec x (arg s0 1 + Z.of_nat (rsize rk))) as [L'|L']; [rewrite !sto_in by lia; reflexivity|rewrite !sto_out by lia; apply HA, Hx].
          - intros C. apply Hx, (ownbelow _ _ _ _ _ _ _ _ X). lia. }
        pose proof (j_mem _ _ _ _ _ _ J2 Hm) as Em2. go. apply ok_nil. apply K; [assumption|exact J2|exact A2|]. apply Er. sst. uregs. reflexivity.
    + cbn [app]. rewrite app_nil_r. assert (Ed : delivered rk s0 mu p = mu) by (unfold delivered, pn in *; pose proof (Hn _ _ _ _ _ _ _ _ X) as N; unfold size_ok in N; clear - Hm N; destruct rk; try reflexivity; lia). rewrite Ed in K.
    assert (C : (exists n, rk = RInt n /\ (has (pi_flags r) PassFlag_ByRef = true \/ (has (pi_flags r) PassFlag_ByRef = false /\ pi_type r = PassType_Basic))) \/
                (exists n, rk = RFloat n /\ has (pi_flags r) PassFlag_ByRef = false /\ pi_type r = PassType_Float)).
    { pose proof (Hn _ _ _ _ _ _ _ _ X) as N. unfold size_ok, pn in *. destruct Hcl as (_ & _ & C). unfold by_ref in C. clear - C Hv Hm N. destruct rk as [|n|n|n]; [contradiction| | |lia].
      - left. exists n. split; [reflexivity|]. destruct C as (_ & _ & [[C _]|(C & C2 & _)]); auto.
      - right. exists n. destruct C as (_ & C & C2 & _). auto. }
    destruct C as [(n & E & [Hb|[Hb Ht]])|(n & E & Hb & Ht)]; rewrite Hb, ?Ht; cbn [Z.eqb Pos.eqb orb PassType_Basic PassType_Float].
    * go. go. apply ok_nil. apply K; [assumption|exact HJ|exact HA|]. unfold returned. rewrite E. sst. uregs. reflexivity.
    * go. go. apply ok_nil. apply K; [assumption|exact HJ|exact HA|]. unfold returned. rewrite E. sst. uregs. reflexivity.
    * go. go. apply ok_nil. apply K; [assumption|exact HJ|exact HA|]. unfold returned. rewrite E. sst. uregs. reflexivity.
Qed.
Lemma do_return_aok p : source pks rk s0 (the_vars rk B) p -> Forall asm_ok (DoReturn r) /\ forallb straight (DoReturn r) = true.
Proof.
  intros Hso. unfold DoReturn. rewrite (ret_mem_eq _ _ _ _ _ _ _ _ X). destruct (pi_size r =? 0) eqn:E; [split; [constructor|reflexivity]|].
  unfold v_ret_ptr, v_memret_ptr. rewrite E. destruct (Z.ltb_spec 0 (pn rk)) as [Hm|Hm].
  - destruct (mem_facts p Hm Hso) as (_ & _ & _ & _ & _ & _ & _ & _ & Hb & Ht & Hg & Hc & Hs & Hr).
    assert (Hu : uint64_ok (pi_size r)) by apply Hcl. rewrite Hb, Ht, Hg, Hc. unfold copy_ret. cbn [Z.eqb Pos.eqb orb andb negb PassType_Basic PassType_Float PassType_Object app]. split; [clear Hcl; rok|reflexivity].
  - repeat match goal with |- context [if ?b then _ else _] => destruct b end; split; try reflexivity; rok.
Qed.
Definition left_frame (s : st) (p : Z) (m : Z -> Z) : Prop :=
  rg s RSP = rg s0 RSP /\ saved s0 s /\ (forall x, B <= x < B + 8 -> mm s x = mm s0 x) /\ Agree m (mm s) /\ returned rk s0 s p.
Lemma R_return pre s tr ctx mu p : I 0 s -> J ctx (mm s) -> Agree mu (mm s) -> saved_ptr p (mm s) -> 0 <= p < W64 -> source pks rk s0 (the_vars rk B) p ->
  R pre (DoReturn r ++ [AMovRM RBP (Rm RBP (-8)); AAddRI RSP fs]) s tr (fun s' tr' => tr' = tr /\ left_frame s' p (delivered rk s0 mu p)).
Proof.
  intros HI HJ HA Hp Rp Hso. basics. destruct (do_return_aok p Hso) as [DA DB].
  apply R_app, R_block; [exact DA|exact DB|]. eapply ok_do_return; [exact HI|exact HJ|exact HA|exact Hp|exact Rp|exact Hso|]. intros s1 I1 J1 A1 Re.
  apply R_block; [rok|reflexivity|].
  eapply ok_any; [cbn [meaning mem rm_reg rm_disp exec1 rd64 ea wr64]; rewrite (i_bp _ _ _ _ _ I1), (wB _ Hsp) by lia; nb; rewrite (j_bp _ _ _ _ _ _ J1); reflexivity|].
  eapply ok_any; [cbn [meaning exec1 rd64 alu wr64]; unfold flags; sst; uregs; rewrite (i_sp _ _ _ _ _ I1), (w64_small fs), (w64_small (B - fs - 0 + fs)) by lia; reflexivity|].
  apply ok_nil. split; [reflexivity|]. unfold left_frame. sst. uregs. split; [rewrite HB; lia|]. split; [|split; [|split]].
  - intros q Hq. unfold nonvolatile in Hq. cbn [In] in Hq. pose proof (i_sv _ _ _ _ _ I1) as Sv. cbn [In] in Sv.
    destruct Hq as [<-|[<-|[<-|[<-|[<-|[<-|[<-|[<-|[]]]]]]]]]; sst; uregs; try reflexivity; apply Sv; auto 10.
  - apply (j_ra _ _ _ _ _ _ J1).
  - exact A1.
  - unfold returned in *. destruct rk; [exact Logic.I| | |]; sst; uregs; exact Re.
Qed.

(** ** All of it *)
Notation ep1 := (PrepareReturn k r ++ CallEndContext k ++ param_dtors ps (S (hidden rk))).
Notation ep2 := (DoReturn r ++ [AMovRM RBP (Rm RBP (-8)); AAddRI RSP fs]).
Lemma epilogue_eq : epilogue k r ps = (ep1 ++ ep2) ++ [ARet].
Proof.
  unfold epilogue. rewrite (ret_class_frame _ _ Hcl), (first_reg_eq _ _ _ _ _ _ _ _ X).
  assert (C : dtors r = []). { unfold dtors. destruct Hcl as ([E|[_ E]] & _); rewrite E; [reflexivity|]. destruct (has _ _); reflexivity. }
  rewrite C. cbn [app]. rewrite <- !app_assoc. reflexivity.
Qed.
Lemma run_epilogue pre s tr ctx mu : I 0 s -> J ctx (mm s) -> Agree mu (mm s) ->
  exists tr4 m4 p e5 tr6 m6 s1, T base env pre ep1 (s, tr) (s1, tr ++ tr4 ++ e5 :: tr6) /\
    ret_ptr h pks rk s0 (the_vars rk B) (B - fs) ctx mu tr4 m4 p /\ end_context h pks rk s0 (the_vars rk B) (B - fs) ctx m4 e5 /\ destroy pks rk s0 (the_vars rk B) (B - fs) pks (S (hidden rk)) (mm (e_out e5)) tr6 m6 /\
    (source pks rk s0 (the_vars rk B) p -> exists s', T base env pre (ep1 ++ ep2) (s, tr) (s', tr ++ tr4 ++ e5 :: tr6) /\ left_frame s' p (delivered rk s0 m6 p)).
Proof.
  intros HI HJ HA.
  assert (P : R pre ep1 s tr (fun s' tr' => exists tr4 m4 p e5 tr6 m6, tr' = tr ++ tr4 ++ e5 :: tr6 /\
    ret_ptr h pks rk s0 (the_vars rk B) (B - fs) ctx mu tr4 m4 p /\ end_context h pks rk s0 (the_vars rk B) (B - fs) ctx m4 e5 /\ destroy pks rk s0 (the_vars rk B) (B - fs) pks (S (hidden rk)) (mm (e_out e5)) tr6 m6 /\
    I 0 s' /\ J ctx (mm s') /\ Agree m6 (mm s') /\ saved_ptr p (mm s') /\ 0 <= p < W64)).
  { apply R_app. eapply R_ret; [exact HI|exact HJ|exact HA|]. clear s HI HJ HA. intros tr4 m4 p s P4 Rp HI HJ HA Hp.
    apply R_app. eapply R_end; [exact HI|exact HJ|exact HA|exact Hp|]. clear s HI HJ HA Hp. intros e5 s P5 HI HJ HA Hp.
    eapply (R_dtors ps 0); [rewrite Nat.add_0_r; reflexivity|intros j q Hq; exact Hq|exact HI|exact HJ|exact HA|exact Hp|]. clear s HI HJ HA Hp. intros tr6 m6 s P6 HI HJ HA Hp.
    exists tr4, m4, p, e5, tr6, m6. rewrite <- !app_assoc. auto 15. }
  destruct P as (s1 & tr' & HT & tr4 & m4 & p & e5 & tr6 & m6 & -> & P4 & P5 & P6 & I1 & J1 & A1 & S1 & Rp).
  exists tr4, m4, p, e5, tr6, m6, s1. split; [exact HT|]. split; [exact P4|]. split; [exact P5|]. split; [exact P6|]. intros Hso.
  destruct (R_return (pre ++ ep1) s1 (tr ++ tr4 ++ e5 :: tr6) ctx m6 p I1 J1 A1 S1 Rp Hso) as (s' & tr' & T2 & -> & LF).
  exists s'. split; [|exact LF]. exact (T_app _ _ _ _ _ _ _ _ HT T2).
Qed.

Theorem run_hook L : pc s0 = 0 -> exists tr s o,
  reaches base env (hook_func k r ps) (s0, []) (s, tr) /\ protocol h pks rk s0 (the_vars rk B) (B - fs) false tr s o /\
  match o with
  | Done _ => at_ret (hook_func k r ps) s /\ rg s RSP = rg s0 RSP /\ saved s0 s /\ (forall x, B <= x < B + 8 -> mm s x = mm s0 x)
  | Cut => (L <= length tr)%nat
  | Broken => True
  end.
Proof.
  intros Hpc. rewrite hook_func_list. set (code := emit_all (hook_list k r ps)).
  assert (Es : s0 = set_pc s0 (off [])) by (change (off []) with 0; rewrite <- Hpc; destruct s0; reflexivity).
  destruct (run_prologue _ _ _ _ _ _ _ _ X) as (s1 & T1 & I1 & J1 & A1).
  destruct (R_setup _ _ _ _ _ _ _ _ X (prologue r ps) s1 _ (fun s2 tr2 => exists e, tr2 = [e] /\ setup h pks rk s0 (the_vars rk B) (B - fs) e /\ I 0 s2 /\ J (rax e) (mm s2) /\ Agree (mm (e_out e)) (mm s2)) I1 J1 A1)
    as (s2 & tr2 & T2 & e1 & -> & P1 & I2 & J2 & A2).
  { intros e s2 Y1 Y2 Y3 Y4. exists e. auto. }
  assert (T3 := T_app _ _ _ _ _ _ _ _ T1 T2). clear T1 T2 I1 J1 A1.
  set (pre1 := prologue r ps ++ CallSetupHookLoop k r) in *.
  set (post1 := og_list k r ps ++ hk_list k r ps ++ epilogue k r ps).
  assert (Ec1 : hook_list k r ps = pre1 ++ hk_list k r ps ++ post1) by (unfold hook_list, pre1, post1; rewrite <- !app_assoc; reflexivity).
  assert (R1 : reaches base env code (s0, []) (set_pc s2 (off pre1), [e1])).
  { unfold code. rewrite Ec1. specialize (T3 (hk_list k r ps ++ post1)). cbn [app fst snd] in T3. rewrite <- Es in T3. exact T3. }
  clear T3.
  destruct (run_hooks _ _ _ _ _ _ _ _ X L pre1 post1 s2 [e1] (rax e1) _ I2 J2 A2) as (tr1 & s3 & o1 & R2 & H1 & O1).
  rewrite <- Ec1 in R2. fold code in R2. assert (R3 := reaches_trans _ _ _ _ _ _ R1 R2). clear R1 R2.
  destruct o1 as [m1| |].
  2:{ exists (e1 :: tr1), s3, Cut. split; [exact R3|]. split; [eapply p_pre; [exact P1|exact H1|discriminate]|cbn [length]; lia]. }
  2:{ exists (e1 :: tr1), s3, Broken. split; [exact R3|]. split; [eapply p_pre; [exact P1|exact H1|discriminate]|exact Logic.I]. }
  destruct O1 as (s4 & -> & I4 & J4 & A4).
  destruct (run_orig _ _ _ _ _ _ _ _ X (pre1 ++ hk_list k r ps) s4 ([e1] ++ tr1) (rax e1) m1 I4 J4 A4) as (tr2 & s5 & m2 & T4 & H2 & I5 & J5 & A5).
  set (pre2 := (pre1 ++ hk_list k r ps) ++ og_list k r ps) in *.
  assert (Ec2 : hook_list k r ps = pre2 ++ hk_list k r ps ++ epilogue k r ps) by (rewrite Ec1; unfold pre2, post1; rewrite <- !app_assoc; reflexivity).
  assert (R4 : reaches base env code (s0, []) (set_pc s5 (off pre2), ([e1] ++ tr1) ++ tr2)).
  { eapply reaches_trans; [exact R3|]. unfold code. rewrite Ec2. specialize (T4 (hk_list k r ps ++ epilogue k r ps)). cbn [fst snd] in T4. fold pre2 in T4. unfold pre2 at 1. rewrite <- app_assoc. exact T4. }
  clear R3 T4 I4 J4 A4.
  destruct (run_hooks _ _ _ _ _ _ _ _ X L pre2 (epilogue k r ps) s5 (([e1] ++ tr1) ++ tr2) (rax e1) m2 I5 J5 A5) as (tr3 & s6 & o3 & R5 & H3 & O3).
  rewrite <- Ec2 in R5. fold code in R5. assert (R6 := reaches_trans _ _ _ _ _ _ R4 R5). clear R4 R5.
  replace ((([e1] ++ tr1) ++ tr2) ++ tr3) with (e1 :: tr1 ++ tr2 ++ tr3) in R6 by (rewrite <- !app_assoc; reflexivity).
  destruct o3 as [m3| |].
  2:{ exists (e1 :: tr1 ++ tr2 ++ tr3), s6, Cut. split; [exact R6|]. split; [eapply p_post; [exact P1|exact H1|exact H2|exact H3|discriminate]|cbn [length]; rewrite !app_length; lia]. }
  2:{ exists (e1 :: tr1 ++ tr2 ++ tr3), s6, Broken. split; [exact R6|]. split; [eapply p_post; [exact P1|exact H1|exact H2|exact H3|discriminate]|exact Logic.I]. }
  destruct O3 as (s7 & -> & I7 & J7 & A7).
  destruct (run_epilogue (pre2 ++ hk_list k r ps) s7 (e1 :: tr1 ++ tr2 ++ tr3) (rax e1) m3 I7 J7 A7) as (tr4 & m4 & p & e5 & tr6 & m6 & s9 & T9 & H4 & H5 & H6 & Full).
  assert (Et : e1 :: tr1 ++ tr2 ++ tr3 ++ tr4 ++ e5 :: tr6 = (e1 :: tr1 ++ tr2 ++ tr3) ++ tr4 ++ e5 :: tr6) by (cbn [app]; rewrite <- !app_assoc; reflexivity).
  destruct (source_dec p) as [So|So].
  - destruct (Full So) as (s8 & T8 & F1 & F2 & F3 & F4 & F5). clear T9 Full.
    set (pre3 := (pre2 ++ hk_list k r ps) ++ ep1 ++ ep2) in *.
    assert (Ec3 : hook_list k r ps = pre3 ++ [ARet]) by (rewrite Ec2, epilogue_eq; unfold pre3; rewrite <- !app_assoc; reflexivity).
    exists (e1 :: tr1 ++ tr2 ++ tr3 ++ tr4 ++ e5 :: tr6), (set_pc s8 (off pre3)), (Done (mm (set_pc s8 (off pre3)))). split; [|split].
    + eapply reaches_trans; [exact R6|]. specialize (T8 [ARet]). cbn [fst snd] in T8. fold pre3 in T8. unfold code. rewrite Ec3, Et.
      unfold pre3 at 1. rewrite <- (app_assoc (pre2 ++ hk_list k r ps)). exact T8.
    + eapply p_all; [exact P1|exact H1|exact H2|exact H3|exact H4|exact H5|exact H6|exact So|exact F4|exact F5].
    + split; [unfold code; rewrite Ec3; apply ret_at; reflexivity|]. split; [exact F1|]. split; [exact F2|exact F3].
  - exists (e1 :: tr1 ++ tr2 ++ tr3 ++ tr4 ++ e5 :: tr6). eexists. exists Broken. split; [|split; [|exact Logic.I]].
    + eapply reaches_trans; [exact R6|]. specialize (T9 (ep2 ++ [ARet])). cbn [fst snd] in T9. unfold code. rewrite Ec2, epilogue_eq, Et.
      rewrite <- (app_assoc ep1 ep2), (app_assoc pre2). exact T9.
    + eapply p_odd; [exact P1|exact H1|exact H2|exact H3|exact H4|exact H5|exact H6|exact So].
Qed.
End Epi.
