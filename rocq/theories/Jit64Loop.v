(** The loop over the handlers. *)
From Coq Require Import List ZArith Bool Lia.
From Verif Require Import TrampModel ProtoModel GenModel Asm64Model Asm64Spec Asm64Proofs Mach64 Mach64Proofs Mach64Mem Jit64Model Jit64Spec Jit64Base Jit64PubProofs Jit64HookSpec Jit64HookList Jit64Run Jit64Frame Jit64Steps Jit64Blocks.
Import ListNotations.
Local Open Scope Z_scope.
Notation length := List.length.

(** Both sides of a jump with the lists written alike. *)
Ltac nl := repeat (progress (try rewrite <- ?app_assoc in *; cbn [app fst snd] in * )).

Lemma load_regs_len l : forall i, (length (load_regs l i) <= length l)%nat.
Proof. induction l as [|p l IH]; intros i; cbn [load_regs length]; [lia|]. destruct (i <? 4)%nat; cbn [length]; [specialize (IH (S i)); lia|lia]. Qed.
Lemma copy_stack_len n : forall i, length (copy_stack n i) = (2 * n)%nat.
Proof. induction n as [|n IH]; intros i; cbn [copy_stack length app]; [reflexivity|]. rewrite IH. lia. Qed.
Lemma save_len r vm vr : (length (SaveReturnValue r vm vr) <= 40)%nat.
Proof.
  unfold SaveReturnValue, call_at, copy_ret. repeat match goal with |- context [if ?b then _ else _] => destruct b end; cbn [app length]; lia.
Qed.
Lemma assign_len r : (length (assign_override r) <= 40)%nat.
Proof. unfold assign_override, call_at, copy_ret. repeat match goal with |- context [if ?b then _ else _] => destruct b end; cbn [app length]; lia. Qed.
Lemma off_int32 l : Z.of_nat (length l) <= 2 ^ 20 -> int32_ok (off l) /\ int32_ok (- off l).
Proof. intros H. pose proof (off_short l). pose proof (off_nonneg l). unfold int32_ok. lia. Qed.

Section Loop.
Variables (k : consts) (r : passinfo) (ps : list passinfo) (rk : rkind) (s0 : st) (B : Z).
Notation fs := (fs_of rk).
Notation pks := (map pk_of ps).
Variables (base : Z) (env : nat -> Z -> st -> st).
Hypothesis X : setting k r ps rk s0 B base env.
Let HB := x_sp _ _ _ _ _ _ _ _ X.
Let Hsp := x_range _ _ _ _ _ _ _ _ X.
Let Hlen := x_len _ _ _ _ _ _ _ _ X.
Let Hcl := x_cl _ _ _ _ _ _ _ _ X.
Notation I := (Jit64Frame.I s0 fs B).
Notation J := (Jit64Blocks.J ps rk s0 B).
Notation Own := (own pks rk s0 (the_vars rk B)).
Notation Agree := (agree pks rk s0 (the_vars rk B)).
Notation Call := (call pks rk s0 (the_vars rk B) (B - fs)).
Notation h := (iface_of k).
Notation Hooks := (hooks (iface_of k) pks rk s0 (the_vars rk B) (B - fs) false).

(** ** Distances *)
Lemma push_len o v : Z.of_nat (length (push_r r ps o v)) <= 10 + 3 * 2 ^ 16.
Proof.
  rewrite (push_r_eq _ _ _ _ _ _ _ _ X). rewrite !app_length, copy_stack_len. pose proof (load_regs_len ps (S (hidden rk))). cbn [length].
  pose proof Hlen. unfold nstk. destruct (_ =? _), (0 <? pn rk); cbn [length]; lia.
Qed.
Lemma body_len : Z.of_nat (length (hk_body k r ps)) <= 100 + 3 * 2 ^ 16.
Proof.
  unfold hk_body. rewrite !app_length. pose proof (push_len v_iter (hk_ret r)). pose proof (save_len r (v_mem_ret r) (v_plugin_ret r)).
  cbn [hk_reset hk_target hk_status length]. lia.
Qed.
Lemma mid_len : Z.of_nat (length (hk_mid k r ps)) <= 200 + 3 * 2 ^ 16.
Proof.
  unfold hk_mid. rewrite app_length. pose proof body_len. pose proof (assign_len r). destruct (pi_size r =? 0); cbn [length]; [lia|].
  rewrite !app_length. cbn [hk_cmp hk_over ctx_fun app length]. lia.
Qed.
Lemma out_ok : int32_ok (hk_out k r ps).
Proof. apply off_int32. rewrite app_length. pose proof mid_len. cbn [length]. lia. Qed.
Lemma back_ok : int32_ok (hk_back k r ps).
Proof. apply off_int32. rewrite !app_length. pose proof mid_len. cbn [hk_head hk_next hk_test ctx_fun app length]. lia. Qed.
Lemma early_ok : int32_ok (hk_early k r ps).
Proof. apply off_int32. rewrite !app_length. pose proof body_len. cbn [hk_head hk_next hk_test ctx_fun hk_cmp app length]. lia. Qed.

(** ** Whether a place is one *)
Lemma own_dec x : {Own x} + {~ Own x}.
Proof.
  assert (D : {B - depth pks rk <= x < B + 8 + 8 * slots pks rk /\ ~ sh rk B x} + {~ (B - depth pks rk <= x < B + 8 + 8 * slots pks rk /\ ~ sh rk B x)}).
  { assert (R : forall a b, {a <= x < b} + {~ (a <= x < b)}) by (intros a b; destruct (Z_le_dec a x), (Z_lt_dec x b); [left; lia|right; lia|right; lia|right; lia]).
    assert (S : {sh rk B x} + {~ sh rk B x}).
    { unfold sh. set (n := Z.of_nat (rsize rk)).
      destruct (R (B - 16) (B - 8)); [left; auto|]. destruct (R (B - 24) (B - 20)); [left; auto|]. destruct (R (B - 32) (B - 28)); [left; auto|].
      destruct (R (B - 40) (B - 36)); [left; auto 10|]. destruct (R (B - 80 - area rk) (B - 80 - area rk + n)); [left; auto 10|]. destruct (R (B - 80 - 2 * area rk) (B - 80 - 2 * area rk + n)); [left; auto 10|].
      destruct (R (B - 80 - 3 * area rk) (B - 80 - 3 * area rk + pn rk)); [left; auto 10|].
      right. tauto. }
    destruct (R (B - depth pks rk) (B + 8 + 8 * slots pks rk)), S; [right; tauto|left; tauto|right; tauto|right; tauto]. }
  destruct D as [D|D]; [left; apply (ownsh _ _ _ _ _ _ _ _ X); exact D|right; intros C; apply D, (ownsh _ _ _ _ _ _ _ _ X), C].
Qed.
Lemma none_dec p n : {forall x, p <= x < p + Z.of_nat n -> ~ Own x} + {~ (forall x, p <= x < p + Z.of_nat n -> ~ Own x)}.
Proof.
  induction n as [|n [IH|IH]].
  - left. intros x Hx. lia.
  - destruct (own_dec (p + Z.of_nat n)) as [O|O].
    + right. intros C. apply (C (p + Z.of_nat n)); [lia|exact O].
    + left. intros x Hx. destruct (Z.eq_dec x (p + Z.of_nat n)) as [-> |Ne]; [exact O|apply IH; lia].
  - right. intros C. apply IH. intros x Hx. apply C. lia.
Qed.
Lemma place_dec p : {place pks rk s0 (the_vars rk B) p} + {~ place pks rk s0 (the_vars rk B) p}.
Proof.
  assert (D : forall a k, {apart p a k} + {~ apart p a k}) by (intros a k'; unfold apart; destruct (Z_le_dec (p + Z.of_nat k') a), (Z_le_dec (a + Z.of_nat k') p); [left; lia|left; lia|left; lia|right; lia]).
  assert (D3 : {match rk with RMem n => apart p (a_plug (the_vars rk B)) n | _ => True end} + {~ match rk with RMem n => apart p (a_plug (the_vars rk B)) n | _ => True end}).
  { clear - D. generalize (a_plug (the_vars rk B)). intros a. destruct rk as [|q|q|q]; [left; exact Logic.I|left; exact Logic.I|left; exact Logic.I|apply D]. }
  unfold place. destruct (Z_le_dec (p + Z.of_nat (rsize rk)) W64); [|right; tauto]. destruct (none_dec p (rsize rk)); [|right; tauto].
  destruct D3; [left; tauto|right; tauto].
Qed.

(** ** The loop *)
Lemma value_given m f : value rk B m (result rk f) = given rk (the_vars rk B) m f.
Proof. unfold value, given. destruct rk; reflexivity. Qed.
Definition at_end (ctx : Z) (l : list asm) (s' : st) (m : Z -> Z) : Prop := exists s1, s' = set_pc s1 (off l) /\ I 0 s1 /\ J ctx (mm s1) /\ Agree m (mm s1).
Lemma loop L : forall pre post s tr ctx mu, I 0 s -> J ctx (mm s) -> Agree mu (mm s) ->
  exists tr' s' o, reaches base env (emit_all (pre ++ hk_loop k r ps ++ post)) (set_pc s (off pre), tr) (s', tr ++ tr') /\ Hooks ctx mu tr' o /\
    match o with Done m => at_end ctx (pre ++ hk_loop k r ps) s' m | Cut => (L <= length tr')%nat | Broken => True end.
Proof.
  induction L as [|L IH]; intros pre post s tr ctx mu HI HJ HA.
  - exists [], (set_pc s (off pre)), Cut. rewrite app_nil_r. split; [apply r_refl|]. split; [constructor|]. cbn [length]. lia.
  - (* GetNext *)
    destruct (R_next _ _ _ _ _ _ _ _ X pre s tr ctx mu (fun s1 tr1 => exists e, tr1 = tr ++ [e] /\ Call 1 mu e (virt ctx (x_next h) e) /\ I 0 s1 /\ J ctx (mm s1) /\
      Agree (mm (e_out e)) (mm s1) /\ ld8 (mm s1) (B - 48) = rax e /\ zf s1 = (rax e =? 0)) HI HJ HA) as (s1 & tr1 & T1 & e & -> & C1 & I1 & J1 & A1 & It1 & Z1).
    { intros e s1 C1 I1 J1 A1 It1 Z1. exists e. auto 10. }
    destruct (Z.eqb_spec (rax e) 0) as [Hz|Hz].
    + (* the end of the loop *)
      exists [e]. exists (set_pc s1 (off (pre ++ hk_loop k r ps))), (Done (mm (e_out e))).
      assert (T2 : T base env pre (hk_loop k r ps) (s, tr) (s1, tr ++ [e])).
      { unfold hk_loop. eapply T_app; [exact T1|]. cbn [app].
        apply (T_taken base env _ (AJz (hk_out k r ps)) CE (hk_out k r ps) (hk_mid k r ps ++ [AJump (hk_back k r ps)])); [reflexivity|exact out_ok| |exact Z1].
        unfold hk_out. rewrite !off_app, !off_jump. reflexivity. }
      split; [apply (T2 post)|]. split; [constructor; assumption|]. exists s1. auto.
    + (* the handler *)
      assert (T2 : T base env pre (hk_head k ++ [AJz (hk_out k r ps)]) (s, tr) (s1, tr ++ [e])).
      { eapply T_app; [exact T1|]. eapply T_not_taken; [reflexivity|exact out_ok|exact Z1]. }
      clear T1.
      destruct (R_handler _ _ _ _ _ _ _ _ X (pre ++ hk_head k ++ [AJz (hk_out k r ps)]) s1 (tr ++ [e]) ctx (mm (e_out e)) (rax e) (fun s2 tr2 => exists f, tr2 = (tr ++ [e]) ++ [f] /\
        Call (nargs pks rk) (before_handler (the_vars rk B) false (mm (e_out e))) f (virt (rax e) (x_call h) f) /\ params pks rk s0 (B - 80 - 3 * area rk) f /\ I 0 s2 /\ J ctx (mm s2) /\
        Agree (after_handler (the_vars rk B) false (mm (e_out f))) (mm s2) /\ (rk <> RVoid -> pn rk = 0 -> ld8 (mm s2) (B - 80 - 3 * area rk) = result rk f) /\ ld (mm s2) (B - 40) 4 = cur (the_vars rk B) (mm (e_out f))) I1 J1 A1 It1)
        as (s2 & tr2 & T3 & f & -> & C2 & P2 & I2 & J2 & A2 & V2 & Cu2).
      { intros f s2 H1 H2 H3 H4 H5 H6 H7. exists f. auto 10. }
      assert (T4 := T_app _ _ _ _ _ _ _ _ T2 T3). clear T2 T3. rewrite <- !app_assoc in T4. cbn [app] in T4. clear s1 I1 J1 A1 It1 Z1.
      assert (Pass : ~ overrides rk (the_vars rk B) (mm (e_out f)) ->
         reaches base env (emit_all (pre ++ hk_loop k r ps ++ post)) (set_pc s (off pre), tr) (set_pc s2 (off pre), tr ++ [e; f]) ->
         exists tr' s' o, reaches base env (emit_all (pre ++ hk_loop k r ps ++ post)) (set_pc s (off pre), tr) (s', tr ++ tr') /\ Hooks ctx mu tr' o /\
           match o with Done m => at_end ctx (pre ++ hk_loop k r ps) s' m | Cut => (S L <= length tr')%nat | Broken => True end).
      { intros No Re. destruct (IH pre post s2 (tr ++ [e; f]) ctx _ I2 J2 A2) as (tr' & s' & o & R1 & R2 & R3).
        exists (e :: f :: tr'), s', o. split; [eapply reaches_trans; [exact Re|]; rewrite <- app_assoc in R1; exact R1|].
        split; [eapply h_pass; eassumption|]. destruct o; [exact R3|cbn [length]; lia|exact Logic.I]. }
      destruct (rkind_eq_void rk) as [Hv|Hv].
      * apply Pass; [intros [C _]; contradiction|].
        assert (Em : hk_mid k r ps = hk_body k r ps) by (unfold hk_mid; rewrite (ret_class_size _ _ Hcl), Hv, app_nil_r; reflexivity).
        eapply reaches_trans; [specialize (T4 (AJump (hk_back k r ps) :: post))|].
        { unfold hk_loop. rewrite Em. nl. exact T4. }
        pose proof (back_jump base env pre (hk_head k ++ AJz (hk_out k r ps) :: hk_body k r ps) (hk_back k r ps) post s2 (tr ++ [e; f]) back_ok) as Bk.
        unfold hk_loop. rewrite Em. nl. apply Bk.
        unfold hk_back. rewrite Em. noff. lia.
      * (* the result is looked at *)
        assert (Em : hk_mid k r ps = hk_body k r ps ++ hk_cmp ++ [AJl (hk_early k r ps)] ++ hk_over k ++ assign_override r).
        { unfold hk_mid. rewrite (ret_class_size _ _ Hcl). destruct rk; [contradiction|reflexivity|reflexivity|reflexivity]. }
        destruct (R_cmp _ _ _ _ _ _ _ _ X (pre ++ hk_head k ++ AJz (hk_out k r ps) :: hk_body k r ps) s2 (tr ++ [e; f]) ctx _
          (fun s3 tr3 => tr3 = tr ++ [e; f] /\ I 0 s3 /\ mm s3 = mm s2 /\ holds s3 CL = (cur (the_vars rk B) (mm (e_out f)) <? 2)) I2 J2 Cu2) as (s3 & tr3 & T5 & -> & I3 & M3 & H3).
        { auto. }
        assert (T6 := T_app _ _ _ _ _ _ _ _ T4 T5). clear T4 T5. nl.
        destruct (Z.ltb_spec (cur (the_vars rk B) (mm (e_out f))) 2) as [Lt|Ge].
        -- (* nothing to do *)
           rewrite <- M3 in J2, A2. clear M3. rename s3 into s3'. revert Pass. 
           assert (Re : reaches base env (emit_all (pre ++ hk_loop k r ps ++ post)) (set_pc s (off pre), tr) (set_pc s3' (off pre), tr ++ [e; f])).
           { eapply reaches_trans; [specialize (T6 (AJl (hk_early k r ps) :: hk_over k ++ assign_override r ++ [AJump (hk_back k r ps)] ++ post))|].
             - unfold hk_loop. rewrite Em. nl. exact T6.
             - pose proof (back_jcc base env pre (hk_head k ++ AJz (hk_out k r ps) :: hk_body k r ps ++ hk_cmp) (AJl (hk_early k r ps)) CL (hk_early k r ps)
                 (hk_over k ++ assign_override r ++ [AJump (hk_back k r ps)] ++ post) s3' (tr ++ [e; f]) eq_refl early_ok) as Bk.
               unfold hk_loop. rewrite Em. nl. apply Bk; [|exact H3].
               unfold hk_early. noff. lia. }
           intros _. destruct (IH pre post s3' (tr ++ [e; f]) ctx _ I3 J2 A2) as (tr' & s' & o & R1 & R2 & R3).
           exists (e :: f :: tr'), s', o. split; [eapply reaches_trans; [exact Re|]; rewrite <- app_assoc in R1; exact R1|].
           split; [eapply h_pass; try eassumption; intros [_ C]; unfold OVERRIDE in C; lia|]. destruct o; [exact R3|cbn [length]; lia|exact Logic.I].
        -- clear Pass. assert (Ov : overrides rk (the_vars rk B) (mm (e_out f))) by (split; [exact Hv|unfold OVERRIDE; lia]).
           assert (T7 : T base env (pre ++ hk_head k ++ AJz (hk_out k r ps) :: hk_body k r ps ++ hk_cmp) [AJl (hk_early k r ps)] (s3, tr ++ [e; f]) (s3, tr ++ [e; f])).
           { eapply T_not_taken; [reflexivity|exact early_ok|exact H3]. }
           assert (T8 := T_app _ _ _ _ _ _ _ _ T6 T7). clear T6 T7. nl.
           rewrite <- M3 in J2, A2. specialize (V2 Hv). rewrite <- M3 in V2.
           destruct (R_over _ _ _ _ _ _ _ _ X (pre ++ hk_head k ++ AJz (hk_out k r ps) :: hk_body k r ps ++ hk_cmp ++ [AJl (hk_early k r ps)]) s3 (tr ++ [e; f]) ctx _ _
             (fun s4 tr4 => exists g, tr4 = (tr ++ [e; f]) ++ [g] /\ Call 1 (after_handler (the_vars rk B) false (mm (e_out f))) g (virt ctx (x_over h) g) /\ I 0 s4 /\ J ctx (mm s4) /\
                Agree (mm (e_out g)) (mm s4) /\ (pn rk = 0 -> ld8 (mm s4) (B - 80 - 3 * area rk) = result rk f) /\ rg s4 RAX = rax g) Hv I3 J2 A2 V2) as (s4 & tr4 & T9 & g & -> & C4 & I4 & J4 & A4 & V4 & X4).
           { intros g s4 Y1 Y2 Y3 Y4 Y5 Y6. exists g. auto 10. }
           assert (T10 := T_app _ _ _ _ _ _ _ _ T8 T9). clear T8 T9. nl.
           destruct (place_dec (rax g)) as [Pl|Pl].
           ++ destruct (assign_aok _ _ _ _ _ _ _ _ X Hv) as [AA AB].
              destruct (R_block base env (pre ++ hk_head k ++ AJz (hk_out k r ps) :: hk_body k r ps ++ hk_cmp ++ [AJl (hk_early k r ps)] ++ hk_over k) (assign_override r) s4 (tr ++ [e; f; g])
                (fun s5 tr5 => tr5 = tr ++ [e; f; g] /\ I 0 s5 /\ J ctx (mm s5) /\ Agree (sto (mm (e_out g)) (rax g) (rsize rk) (value rk B (mm (e_out g)) (result rk f))) (mm s5)) AA AB) as (s5 & tr5 & T11 & -> & I5 & J5 & A5).
              { eapply ok_assign; [exact X|exact Hv|exact I4|exact J4|exact A4|exact X4|exact V4|exact Pl|]. auto. }
              assert (T12 : T base env pre (hk_head k ++ AJz (hk_out k r ps) :: hk_mid k r ps) (s, tr) (s5, tr ++ [e; f; g])).
              { pose proof (T_app _ _ _ _ _ _ _ _ T10 T11) as T12. rewrite Em. cbn [app]. nl. exact T12. }
              clear T10 T11. destruct (IH pre post s5 (tr ++ [e; f; g]) ctx _ I5 J5 A5) as (tr' & s' & o & R1 & R2 & R3).
              exists (e :: f :: g :: tr'), s', o. split; [|split; [eapply h_over; try eassumption; rewrite <- value_given; exact R2|destruct o; [exact R3|cbn [length]; lia|exact Logic.I]]].
              eapply reaches_trans; [specialize (T12 (AJump (hk_back k r ps) :: post))|].
              { unfold hk_loop. nl. exact T12. }
              eapply reaches_trans; [|rewrite <- app_assoc in R1; exact R1].
              pose proof (back_jump base env pre (hk_head k ++ AJz (hk_out k r ps) :: hk_mid k r ps) (hk_back k r ps) post s5 (tr ++ [e; f; g]) back_ok) as Bk.
              unfold hk_loop. nl. apply Bk.
              unfold hk_back. noff. lia.
           ++ exists [e; f; g]. eexists. exists Broken. split; [|split; [eapply h_broken; eassumption|exact Logic.I]].
              specialize (T10 (assign_override r ++ AJump (hk_back k r ps) :: post)). unfold hk_loop. rewrite Em. nl. exact T10.
Qed.
End Loop.
