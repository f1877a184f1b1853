(** The call of the original function. *)
From Coq Require Import List ZArith Bool Lia.
From Verif Require Import TrampModel ProtoModel GenModel Asm64Model Asm64Spec Asm64Proofs Mach64 Mach64Proofs Mach64Mem Jit64Model Jit64Spec Jit64Base Jit64PubProofs Jit64HookSpec Jit64HookList Jit64Run Jit64Frame Jit64Steps Jit64Blocks Jit64Loop.
Import ListNotations.
Local Open Scope Z_scope.
Notation length := List.length.

Section Orig.
Variables (k : consts) (r : passinfo) (ps : list passinfo) (rk : rkind) (s0 : st) (B : Z).
Notation fs := (fs_of rk).
Notation pks := (map pk_of ps).
Variables (base : Z) (env : nat -> Z -> st -> st).
Hypothesis X : setting k r ps rk s0 B base env.
Let HB := x_sp _ _ _ _ _ _ _ _ X.
Let Hsp := x_range _ _ _ _ _ _ _ _ X.
Let Hlen := x_len _ _ _ _ _ _ _ _ X.
Let Hcl := x_cl _ _ _ _ _ _ _ _ X.
Let Hk := x_k _ _ _ _ _ _ _ _ X.
Notation I := (Jit64Frame.I s0 fs B).
Notation J := (Jit64Blocks.J ps rk s0 B).
Notation R := (Jit64Blocks.R base env).
Notation Own := (own pks rk s0 (the_vars rk B)).
Notation Agree := (agree pks rk s0 (the_vars rk B)).
Notation Call := (call pks rk s0 (the_vars rk B) (B - fs)).
Notation h := (iface_of k).
Notation oret := (B - 80 - area rk).
Notation stat := (status (the_vars rk B)).
Ltac kx := pose proof Hk as (? & ? & ? & ? & ? & ? & ? & ? & ? & ? & ? & ? & ? & ? & ?).
Ltac aok := clear Hcl; kx; rok.
Ltac basics := pose proof (depthge _ _ _ _ _ _ _ _ X) as HD; pose proof (Hfsr _ _ _ _ _ _ _ _ X) as HF; pose proof W64v as HW; pose proof (Hfacts _ _ _ _ _ _ _ _ X) as HG; pose proof (fs_c _ _ _ _ _ _ _ _ X) as HFC.

Lemma stat8 ctx c s mu : I c s -> J ctx (mm s) -> Agree mu (mm s) -> ld8 (mm s) (B - 24) = stat mu /\ 0 <= stat mu < 2 ^ 32.
Proof.
  intros HI HJ HA. pose proof (small_ld _ _ _ _ _ _ _ _ X ctx (mm s) (B - 24) HJ (small24 B)) as E.
  unfold status. cbn [the_vars a_status]. rewrite <- (small_agree_ld _ _ _ _ _ _ _ _ X _ _ _ HA (small24 B)). rewrite E. split; [reflexivity|].
  apply ld4_range. eapply I_bytes; exact HI.
Qed.

Lemma R_status pre s tr ctx mu (Q : st -> list event -> Prop) : I 0 s -> J ctx (mm s) -> Agree mu (mm s) ->
  (forall s', I 0 s' -> mm s' = mm s -> zf s' = (stat mu =? 3) -> Q s' tr) -> R pre og_status s tr Q.
Proof.
  intros HI HJ HA K. basics. destruct (stat8 _ _ _ _ HI HJ HA) as [Es Rs]. unfold og_status. uv. apply R_block; [rok|reflexivity|].
  go. eapply ok_any; [cbn [meaning exec1 rd64 alu]; sst; uregs; change (w64 3) with 3; reflexivity|].
  destruct (cmp_lt (set_rg s RAX (stat mu)) (stat mu) 3 ltac:(lia) ltac:(lia)) as [_ F2]. cbv zeta in F2.
  apply ok_nil. apply K; [apply I_set_fl; assumption|reflexivity|exact F2].
Qed.

Lemma R_should pre s tr ctx mu (Q : st -> list event -> Prop) : I 0 s -> J ctx (mm s) -> Agree mu (mm s) ->
  (forall e s', Call 1 mu e (virt ctx (x_should h) e) -> I 0 s' -> J ctx (mm s') -> Agree (mm (e_out e)) (mm s') -> zf s' = negb (Z.odd (rax e)) -> Q s' (tr ++ [e])) ->
  R pre (og_should k ++ [ACall RAX] ++ og_test) s tr Q.
Proof.
  intros HI HJ HA K. pose proof (ctx_range _ _ _ _ _ _ _ HI HJ) as HC. basics.
  pose proof (j_ctx _ _ _ _ _ _ HJ) as Ec. pose proof (w0 _ HC) as E0.
  unfold og_should, og_test. uv. apply R_app, R_block; [aok|reflexivity|].
  go. go. go. go. go. go. apply R_app. eapply R_call; [exact X|split; [discriminate|reflexivity]|eassumption|lia|reflexivity|lia|].
  sst. uregs. intros e s' C. destruct (after_called _ _ _ _ _ _ _ _ X _ _ _ _ _ ctx C HJ) as (HJ' & HA' & HI').
  apply R_block; [rok|reflexivity|]. pose proof (cl_rax _ _ _ _ _ _ _ _ _ _ C) as Er.
  pose proof (I_rg _ _ _ _ _ RAX HI') as Rr. rewrite Er in Rr.
  go. eapply ok_any; [cbn [meaning exec1 rd64]; sst; uregs; change (w64 1) with 1; reflexivity|]. apply ok_nil. apply K.
  - rewrite (Z.mul_comm 8) in C. eapply virt_called; [exact C|lia|reflexivity|exact HA|reflexivity].
  - apply I_set_fl. assumption.
  - exact HJ'.
  - exact HA'.
  - sst. rewrite Er. apply odd_land. lia.
Qed.

(** a value stored where the original's result is kept *)
Lemma oret_J ctx m v : J ctx m -> J ctx (st8 m oret v).
Proof. intros HJ. basics. eapply J_kept; [exact X|exact HJ|]. apply kept_st8; [lia|lia|]. intros x Hx C. unfold fixed in C. lia. Qed.
Lemma oret_agree mu m v : rk <> RVoid -> pn rk = 0 -> Agree mu m -> Agree (sto mu oret (rsize rk) v) (st8 m oret v).
Proof.
  intros Hv Hp HA. basics. apply agree_sto; [lia|lia|lia|reflexivity| |exact HA].
  intros x Hx. apply (ownsh _ _ _ _ _ _ _ _ X). unfold sh. pose proof (slots_ge pks rk (Hps _ _ _ _ _ _ _ _ X) (Hn _ _ _ _ _ _ _ _ X)). lia.
Qed.

Lemma og_ret_eq : rk <> RVoid -> og_ret r = -80 - area rk \/ pn rk = 0.
Proof.
  intros Hv. destruct (vars_nonvoid _ _ Hcl Hv) as (_ & Vo & _). basics. destruct HG as (_ & _ & _ & [(E & _)|(E & _)]); [auto|].
  left. unfold og_ret. rewrite (temp_false _ _ _ _ _ _ _ _ X E). exact Vo.
Qed.
Lemma store_mem m f : 0 < pn rk -> store_result rk (the_vars rk B) m f = m.
Proof. unfold pn, store_result. destruct rk; try discriminate. reflexivity. Qed.
Lemma store_reg m f : pn rk = 0 -> store_result rk (the_vars rk B) m f = sto m oret (rsize rk) (result rk f).
Proof. pose proof (Hn _ _ _ _ _ _ _ _ X) as N. unfold pn, size_ok, store_result in *. destruct rk; try reflexivity. lia. Qed.
Lemma R_call_orig pre s tr ctx mu (Q : st -> list event -> Prop) : I 0 s -> J ctx (mm s) -> Agree mu (mm s) ->
  (forall f s', Call (nargs pks rk) mu f (fun m => e_target f = ld8 m (B - 16) /\ arg (e_in f) 0 = arg s0 0) -> params pks rk s0 oret f -> I 0 s' -> J ctx (mm s') ->
     Agree (store_result rk (the_vars rk B) (mm (e_out f)) f) (mm s') -> Q s' (tr ++ [f])) ->
  R pre (og_call r ps) s tr Q.
Proof.
  intros HI HJ HA K. basics. pose proof (space_range ps rk) as SR. pose proof (space_mod ps rk) as SM.
  pose proof (ret_vals_range _ _ _ _ _ _ _ _ X) as [_ OR].
  unfold og_call. apply R_app. destruct (push_aok _ _ _ _ _ _ _ _ X v_this (og_ret r) ltac:(uv; lia) OR) as [PA PB].
  apply R_block; [exact PA|exact PB|]. eapply ok_push; [exact X|exact HI|exact HJ|uv; lia|exact OR|exact (j_this _ _ _ _ _ _ HJ)|]. intros s1 HI1 Ec Ed HP Hm.
  rewrite (push_space_eq _ _ _ _ _ _ _ _ X).
  assert (HA1 : Agree mu (mm s1)) by (eapply agree_trans; [exact HA|eapply agree_out; [exact X|exact Hm|lia]]).
  assert (HJ1 : J ctx (mm s1)) by (eapply J_kept; [exact X|exact HJ|eapply kept_out; [exact X|exact Hm]]).
  change ([?a; ACall RAX; ?b] ++ ?l) with ([a] ++ [ACall RAX] ++ [b] ++ l). apply R_app. uv. apply R_block; [rok|reflexivity|]. go. go.
  apply R_app. eapply R_call; [exact X|split; [discriminate|reflexivity]|eassumption|lia|exact SM|lia|]. sst. uregs. intros f s2 C.
  assert (P1 : params pks rk s0 oret f).
  { eapply pass_params; [exact X|exact C|apply pass_rax; exact HP|]. intros Hp. sst. uregs. rewrite (Ed Hp). destruct (og_ret_eq (mem_void _ _ _ _ _ _ _ _ X Hp)); lia. }
  assert (C1 : Call (nargs pks rk) mu f (fun m => e_target f = ld8 m (B - 16) /\ arg (e_in f) 0 = arg s0 0)).
  { eapply call_of; [exact C|eapply slots_room; exact X|exact HA1|]. split.
    - rewrite (cl_target _ _ _ _ _ _ _ _ _ _ C). reflexivity.
    - rewrite (cl_reg _ _ _ _ _ _ _ _ _ _ C) by lia. cbn [nth]. sst. uregs. exact Ec. }
  destruct (after_called _ _ _ _ _ _ _ _ X _ _ _ _ _ ctx C HJ1) as (HJ2 & HA2 & HI2).
  pose proof (cl_rax _ _ _ _ _ _ _ _ _ _ C) as Er. pose proof (cl_xm _ _ _ _ _ _ _ _ _ _ C) as Ex.
  clear C. apply R_app. apply R_block; [rok|reflexivity|].
  eapply ok_add; [exact Hsp|exact HF|exact HI2|apply Z.sub_diag|lia|lia|lia|]. intros z n o HI3. apply ok_nil.
  set (s3 := set_rg _ RSP _) in *. assert (Em3 : mm s3 = mm s2) by reflexivity.
  assert (Ev3 : resv rk s3 = result rk f). { unfold resv, result. destruct rk; [reflexivity| | |reflexivity]; unfold s3; sst; uregs; [exact Er|rewrite Ex; reflexivity]. }
  clearbody s3.
  destruct (rkind_eq_void rk) as [Hv|Hv].
  - apply R_block; [unfold SaveReturnValue; rewrite (ret_class_size _ _ Hcl), Hv; constructor|unfold SaveReturnValue; rewrite (ret_class_size _ _ Hcl), Hv; reflexivity|].
    eapply ok_save_void; [exact X|exact Hv|]. apply K; [exact C1|exact P1|exact HI3|rewrite Em3; exact HJ2|rewrite Em3].
    rewrite store_reg by (rewrite Hv; reflexivity). assert (E0 : rsize rk = 0%nat) by (rewrite Hv; reflexivity). rewrite E0. exact HA2.
  - destruct (Z.ltb_spec 0 (pn rk)) as [Hp|Hp].
    { rewrite (save_mem _ _ _ _ _ _ _ _ X _ _ Hp). apply R_nil. apply K; [exact C1|exact P1|exact HI3|rewrite Em3; exact HJ2|rewrite Em3, (store_mem _ _ Hp); exact HA2]. }
    assert (Hp0 : pn rk = 0) by lia.
    destruct (vars_nonvoid _ _ Hcl Hv) as (_ & Vo & _ & _). destruct (save_aok _ _ _ _ _ _ _ _ X (v_mem_ret r) (v_orig_ret r)) as [SA SB]; [rewrite Vo; lia|exact Hp0|].
    apply R_block; [exact SA|exact SB|]. rewrite Vo.
    eapply ok_save; [exact X|exact Hv|exact Hp0|exact HI3|lia|]. replace (B + (-80 - area rk)) with oret by lia. intros HI4. rewrite Em3, Ev3 in *. apply K; sst.
    + exact C1.
    + exact P1.
    + exact HI4.
    + apply oret_J, HJ2.
    + rewrite store_reg by exact Hp0. apply oret_agree; [exact Hv|exact Hp0|exact HA2].
Qed.

(** orig_ret = override_ret *)
Lemma ofo_aok : Forall asm_ok (orig_from_override r) /\ forallb straight (orig_from_override r) = true.
Proof.
  unfold orig_from_override. destruct (rkind_eq_void rk) as [Hv|Hv].
  - rewrite (ret_class_size _ _ Hcl), Hv. split; [constructor|reflexivity].
  - destruct (vars_nonvoid _ _ Hcl Hv) as (_ & Vo & Vv & _). rewrite Vo, Vv.
    basics. destruct (ret_cases _ _ _ _ _ _ _ _ X Hv) as (Hu & [[Hb _]|(Hb & Hz & _)]); rewrite Hb.
    + destruct (pi_size r =? 0); split; try reflexivity; rok.
    + rewrite Hz. unfold copy_ret. cbn [Z.eqb negb app]. destruct (pi_size r =? 0); split; try reflexivity; rok.
Qed.
Lemma ok_ofo s ctx mu (Q : st -> Prop) : I 0 s -> J ctx (mm s) -> Agree mu (mm s) ->
  (forall s', I 0 s' -> J ctx (mm s') -> Agree (take_override rk (the_vars rk B) mu) (mm s') -> Q s') -> ok (orig_from_override r) s Q.
Proof.
  intros HI HJ HA K. basics. unfold orig_from_override. destruct (rkind_eq_void rk) as [Hv|Hv].
  - rewrite (ret_class_size _ _ Hcl), Hv. apply ok_nil. apply K; [exact HI|exact HJ|]. unfold take_override.
    assert (E0 : rsize rk = 0%nat) by (rewrite Hv; reflexivity). rewrite E0. exact HA.
  - destruct (vars_nonvoid _ _ Hcl Hv) as (_ & Vo & Vv & _). rewrite Vo, Vv. pose proof (Hn _ _ _ _ _ _ _ _ X) as N. pose proof (fs_nonvoid _ _ _ _ _ _ _ _ X Hv) as F.
    assert (Ez : (pi_size r =? 0) = false) by (rewrite (ret_class_size _ _ Hcl); destruct rk; [contradiction|reflexivity|reflexivity|reflexivity]). rewrite Ez.
    assert (El : ld (mm s) (B - 80 - 2 * area rk) (rsize rk) = ld mu (B - 80 - 2 * area rk) (rsize rk)).
    { eapply agree_ld; [exact HA|lia|lia|]. intros x Hx. eapply shared_not_own; [exact X|]. unfold sh. lia. }
    unfold take_override in K. cbn [the_vars a_oret a_over] in K.
    destruct (ret_cases _ _ _ _ _ _ _ _ X Hv) as (Hu & [(Hb & Hn8 & Hp0)|(Hb & Hz & Hs & Hr)]); rewrite Hb.
    + go. go. apply ok_nil. replace (B + (-80 - area rk)) with oret in * by lia. replace (B + (-80 - 2 * area rk)) with (B - 80 - 2 * area rk) in * by lia. apply K.
      * assumption.
      * sst. apply oret_J, HJ.
      * sst. rewrite <- El. replace (ld8 (mm s) (B - 80 - 2 * area rk)) with (ld (mm s) (B - 80 - 2 * area rk) (rsize rk)) by (rewrite Hn8; reflexivity). apply oret_agree; assumption.
    + rewrite Hz. cbn [Z.eqb negb].
      destruct (ok_copy_ret _ _ _ _ _ _ _ _ X s (ALea RDI (Rm RBP (-80 - area rk))) (ALea RSI (Rm RBP (-80 - 2 * area rk))) oret (B - 80 - 2 * area rk) (rsize rk) HI Hu Hs ltac:(lia)) as (s' & E & HI' & Hm).
      * intros s' E _ _. cbn [meaning mem rm_reg rm_disp exec1 ea]. rewrite E, (wB _ Hsp) by lia. do 2 f_equal. lia.
      * intros s' E _. cbn [meaning mem rm_reg rm_disp exec1 ea]. rewrite E, (wB _ Hsp) by lia. do 2 f_equal. lia.
      * lia.
      * lia.
      * lia.
      * lia.
      * lia.
      * lia.
      * lia.
      * exists s'. split; [exact E|]. apply K; [exact HI'| |].
        -- eapply J_kept; [exact X|exact HJ|]. intros x Hx. destruct (ownfixed _ _ _ _ _ _ _ _ X x Hx). rewrite Hm by lia. apply sto_out; [lia|lia|]. unfold fixed in Hx. lia.
        -- rewrite <- El. intros x Hx. rewrite Hm.
           ++ destruct (Z_lt_dec x oret) as [L|L]; [rewrite !sto_out by lia; apply HA, Hx|].
              destruct (Z_lt_dec x (oret + Z.of_nat (rsize rk))) as [L'|L']; [rewrite !sto_in by lia; reflexivity|rewrite !sto_out by lia; apply HA, Hx].
           ++ intros C. apply Hx, (ownbelow _ _ _ _ _ _ _ _ X). lia.
Qed.

(** ** All of it *)
Lemma og_call_len : Z.of_nat (length (og_call r ps)) <= 100 + 3 * 2 ^ 16.
Proof.
  unfold og_call. rewrite !app_length. pose proof (push_len _ _ _ _ _ _ _ _ X v_this (og_ret r)). pose proof (save_len r (v_mem_ret r) (v_orig_ret r)). cbn [length]. lia.
Qed.
Lemma ofo_len : (length (orig_from_override r) <= 40)%nat.
Proof. unfold orig_from_override, call_at, copy_ret. repeat match goal with |- context [if ?b then _ else _] => destruct b end; cbn [app length]; lia. Qed.
Lemma ogd2_ok : int32_ok (og_d2 r ps).
Proof. apply off_int32. rewrite app_length. pose proof og_call_len. cbn [length]. lia. Qed.
Lemma ogd1_ok : int32_ok (og_d1 k r ps).
Proof.
  unfold og_d1, og_d2. rewrite <- off_app. apply off_int32. rewrite !app_length. pose proof og_call_len. cbn [length og_should og_test]. lia.
Qed.
Lemma ogd3_ok : int32_ok (og_d3 r).
Proof. apply off_int32. pose proof ofo_len. lia. Qed.

Lemma run_orig pre s tr ctx mu : I 0 s -> J ctx (mm s) -> Agree mu (mm s) ->
  exists tr' s' m2, T base env pre (og_list k r ps) (s, tr) (s', tr ++ tr') /\ orig h pks rk s0 (the_vars rk B) (B - fs) ctx mu tr' m2 /\ I 0 s' /\ J ctx (mm s') /\ Agree m2 (mm s').
Proof.
  intros HI HJ HA.
  destruct (R_status pre s tr ctx mu (fun s1 tr1 => tr1 = tr /\ I 0 s1 /\ mm s1 = mm s /\ zf s1 = (stat mu =? 3)) HI HJ HA) as (s1 & tr1 & T1 & -> & I1 & M1 & Z1); [auto|].
  rewrite <- M1 in HJ, HA. clear M1 HI.
  destruct ofo_aok as [FA FB].
  assert (Else : forall pre' s2 tr2 mu2, I 0 s2 -> J ctx (mm s2) -> Agree mu2 (mm s2) ->
    exists s3, T base env pre' (orig_from_override r) (s2, tr2) (s3, tr2) /\ I 0 s3 /\ J ctx (mm s3) /\ Agree (take_override rk (the_vars rk B) mu2) (mm s3)).
  { intros pre' s2 tr2 mu2 I2 J2 A2.
    destruct (R_block base env pre' (orig_from_override r) s2 tr2 (fun s3 tr3 => tr3 = tr2 /\ I 0 s3 /\ J ctx (mm s3) /\ Agree (take_override rk (the_vars rk B) mu2) (mm s3)) FA FB) as (s3 & tr3 & T3 & -> & H3).
    { eapply ok_ofo; [exact I2|exact J2|exact A2|]. auto. }
    exists s3. auto. }
  destruct (Z.eqb_spec (stat mu) 3) as [E3|E3].
  - (* superceded *)
    destruct (Else (pre ++ og_status ++ AJe (og_d1 k r ps) :: og_should k ++ [ACall RAX] ++ og_test ++ [AJz (og_d2 r ps)] ++ og_call r ps ++ [AJump (og_d3 r)]) s1 tr mu I1 HJ HA) as (s3 & T3 & I3 & J3 & A3).
    exists [], s3, (take_override rk (the_vars rk B) mu). rewrite app_nil_r. split; [|split; [constructor; exact E3|auto]].
    assert (T2 : T base env (pre ++ og_status) (AJe (og_d1 k r ps) :: og_should k ++ [ACall RAX] ++ og_test ++ [AJz (og_d2 r ps)] ++ og_call r ps ++ [AJump (og_d3 r)]) (s1, tr) (s1, tr)).
    { eapply T_taken; [reflexivity|exact ogd1_ok| |exact Z1]. unfold og_d1, og_d2. noff. lia. }
    assert (T4 := T_app _ _ _ _ _ _ _ _ T1 T2). clear T1 T2. assert (T5 := T_app _ _ _ _ _ _ _ _ T4 T3). clear T4 T3 Else. unfold og_list. nl. exact T5.
  - assert (T2 : T base env (pre ++ og_status) [AJe (og_d1 k r ps)] (s1, tr) (s1, tr)) by (eapply T_not_taken; [reflexivity|exact ogd1_ok|exact Z1]).
    assert (T3 := T_app _ _ _ _ _ _ _ _ T1 T2). clear T1 T2.
    destruct (R_should (pre ++ og_status ++ [AJe (og_d1 k r ps)]) s1 tr ctx mu (fun s2 tr2 => exists e, tr2 = tr ++ [e] /\ Call 1 mu e (virt ctx (x_should h) e) /\ I 0 s2 /\ J ctx (mm s2) /\
      Agree (mm (e_out e)) (mm s2) /\ zf s2 = negb (Z.odd (rax e))) I1 HJ HA) as (s2 & tr2 & T4 & e & -> & C2 & I2 & J2 & A2 & Z2).
    { intros e s2 Y1 Y2 Y3 Y4 Y5. exists e. auto 10. }
    assert (T5 := T_app _ _ _ _ _ _ _ _ T3 T4). clear T3 T4.
    destruct (Z.odd (rax e)) eqn:Od; cbn [negb] in Z2.
    + (* the original is called *)
      assert (T6 : T base env (pre ++ og_status ++ AJe (og_d1 k r ps) :: og_should k ++ ACall RAX :: og_test) [AJz (og_d2 r ps)] (s2, tr ++ [e]) (s2, tr ++ [e])) by (eapply T_not_taken; [reflexivity|exact ogd2_ok|exact Z2]).
      assert (T5' : T base env pre (og_status ++ AJe (og_d1 k r ps) :: og_should k ++ ACall RAX :: og_test) (s, tr) (s2, tr ++ [e])) by (clear Else; nl; exact T5).
      assert (T7 := T_app _ _ _ _ _ _ _ _ T5' T6). clear T5 T5' T6.
      destruct (R_call_orig (pre ++ (og_status ++ AJe (og_d1 k r ps) :: og_should k ++ ACall RAX :: og_test) ++ [AJz (og_d2 r ps)]) s2 (tr ++ [e]) ctx _
        (fun s3 tr3 => exists f, tr3 = (tr ++ [e]) ++ [f] /\ Call (nargs pks rk) (mm (e_out e)) f (fun m => e_target f = ld8 m (B - 16) /\ arg (e_in f) 0 = arg s0 0) /\ params pks rk s0 oret f /\ I 0 s3 /\ J ctx (mm s3) /\
           Agree (store_result rk (the_vars rk B) (mm (e_out f)) f) (mm s3)) I2 J2 A2) as (s3 & tr3 & T8 & f & -> & C3 & P3 & I3 & J3 & A3).
      { intros f s3 Y1 Y2 Y3 Y4 Y5. exists f. auto 10. }
      assert (T9 := T_app _ _ _ _ _ _ _ _ T7 T8). clear T7 T8.
      exists [e; f], s3, (store_result rk (the_vars rk B) (mm (e_out f)) f). split; [|split; [eapply o_called; eassumption|auto]].
      assert (T10 : T base env (pre ++ ((og_status ++ AJe (og_d1 k r ps) :: og_should k ++ ACall RAX :: og_test) ++ [AJz (og_d2 r ps)]) ++ og_call r ps) (AJump (og_d3 r) :: orig_from_override r) (s3, (tr ++ [e]) ++ [f]) (s3, (tr ++ [e]) ++ [f])).
      { apply T_jump; [exact ogd3_ok|reflexivity]. }
      assert (T11 := T_app _ _ _ _ _ _ _ _ T9 T10). clear T9 T10 Else. unfold og_list. nl. exact T11.
    + (* not called *)
      assert (T5' : T base env pre (og_status ++ AJe (og_d1 k r ps) :: og_should k ++ ACall RAX :: og_test) (s, tr) (s2, tr ++ [e])) by (clear Else; nl; exact T5).
      assert (T6 : T base env (pre ++ og_status ++ AJe (og_d1 k r ps) :: og_should k ++ ACall RAX :: og_test) (AJz (og_d2 r ps) :: og_call r ps ++ [AJump (og_d3 r)]) (s2, tr ++ [e]) (s2, tr ++ [e])).
      { eapply T_taken; [reflexivity|exact ogd2_ok| |exact Z2]. unfold og_d2. noff. lia. }
      assert (T7 := T_app _ _ _ _ _ _ _ _ T5' T6). clear T5 T5' T6.
      destruct (Else (pre ++ (og_status ++ AJe (og_d1 k r ps) :: og_should k ++ ACall RAX :: og_test) ++ AJz (og_d2 r ps) :: og_call r ps ++ [AJump (og_d3 r)]) s2 (tr ++ [e]) _ I2 J2 A2) as (s3 & T8 & I3 & J3 & A3).
      assert (T9 := T_app _ _ _ _ _ _ _ _ T7 T8). clear T7 T8 Else.
      exists [e], s3, (take_override rk (the_vars rk B) (mm (e_out e))). split; [|split; [eapply o_should_not; eassumption|auto]]. unfold og_list. nl. exact T9.
Qed.

(** ** prev = IGNORED and the loop *)
Lemma run_hooks L pre post s tr ctx mu : I 0 s -> J ctx (mm s) -> Agree mu (mm s) ->
  exists tr' s' o, reaches base env (emit_all (pre ++ hk_list k r ps ++ post)) (set_pc s (off pre), tr) (s', tr ++ tr') /\
    hooks h pks rk s0 (the_vars rk B) (B - fs) false ctx (set_prev (the_vars rk B) mu IGNORED) tr' o /\
    match o with Done m => at_end ps rk s0 B ctx (pre ++ hk_list k r ps) s' m | Cut => (L <= length tr')%nat | Broken => True end.
Proof.
  intros HI HJ HA. basics.
  destruct (R_block base env pre [AMovMI (Rm RBP v_prev_res) MRES_IGNORED] s tr (fun s1 tr1 => tr1 = tr /\ I 0 s1 /\ J ctx (mm s1) /\ Agree (set_prev (the_vars rk B) mu IGNORED) (mm s1))) as (s1 & tr1 & T1 & -> & I1 & J1 & A1).
  - uv. rok.
  - reflexivity.
  - uv. go. apply ok_nil. split; [reflexivity|]. split; [assumption|]. nb. sst. split.
    + eapply J_kept; [exact X|exact HJ|]. eapply small_kept; [exact X|exact HJ|apply small32|lia].
    + unfold set_prev. cbn [the_vars a_prev]. eapply small_agree; [exact X|exact HA|apply small32|reflexivity].
  - destruct (loop _ _ _ _ _ _ _ _ X L (pre ++ [AMovMI (Rm RBP v_prev_res) MRES_IGNORED]) post s1 tr ctx _ I1 J1 A1) as (tr' & s' & o & R1 & R2 & R3).
    exists tr', s', o. split; [|split; [exact R2|]].
    + eapply reaches_trans; [specialize (T1 (hk_loop k r ps ++ post)); exact T1|]. rewrite <- app_assoc in R1. exact R1.
    + destruct o; [|exact R3|exact Logic.I]. rewrite <- app_assoc in R3. exact R3.
Qed.
End Orig.
