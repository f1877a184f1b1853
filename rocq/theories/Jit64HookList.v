(** The hook function as a list of instructions with the jump distances filled in. *)
From Coq Require Import List ZArith Bool Lia.
From Verif Require Import TrampModel ProtoModel GenModel Asm64Model Asm64Spec Asm64Proofs Mach64 Mach64Proofs Jit64Model Jit64Base.
Import ListNotations.
Local Open Scope Z_scope.
Notation length := List.length.

(** ** The hook loop *)
Definition push_r (r : passinfo) (ps : list passinfo) (o v : Z) : list asm := fst (PushParameters r ps o v).
Definition push_space (r : passinfo) (ps : list passinfo) (o v : Z) : Z := snd (PushParameters r ps o v).

Definition hk_next (k : consts) : list asm :=
  ctx_fun (i_next k) ++ [ASubRI RSP 40; AMovRM RCX (Rm RBP v_pContext)].
Definition hk_test : list asm := [AMovMR (Rm RBP v_iter) RAX; AAddRI RSP 40; ATestRR RAX RAX].
Definition hk_ret (r : passinfo) : Z := if MemRetWithTempObj r then v_mem_ret r else v_plugin_ret r.
Definition hk_reset : list asm := [AMovMI (Rm RBP v_cur_res) MRES_IGNORED; AMovRM RAX (Rm RBP v_cur_res); AMovMR (Rm RBP v_prev_res) RAX].
Definition hk_target (k : consts) : list asm :=
  [AMovRM RAX (Rm RBP v_iter); AMovRM RAX (Rm RAX 0); AMovRM RAX (Rm RAX (i_call k * SIZE_PTR))].
Definition hk_status : list asm :=
  [AMovRM RAX (Rm RBP v_cur_res); ACmpRM RAX (Rm RBP v_status); AMovRM RAX (Rm RBP v_status);
   ACmovgRM RAX (Rm RBP v_cur_res); AMovMR (Rm RBP v_status) RAX].
Definition hk_body (k : consts) (r : passinfo) (ps : list passinfo) : list asm :=
  hk_reset ++ push_r r ps v_iter (hk_ret r) ++ hk_target k ++ [ACall RAX; AAddRI RSP (push_space r ps v_iter (hk_ret r))]
  ++ SaveReturnValue r (v_mem_ret r) (v_plugin_ret r) ++ hk_status.
Definition hk_cmp : list asm := [AMovRI RAX MRES_OVERRIDE; ACmpMR (Rm RBP v_cur_res) RAX].
Definition hk_over (k : consts) : list asm :=
  [ASubRI RSP 40] ++ ctx_fun (i_over k) ++ [AMovRM RCX (Rm RBP v_pContext); ACall RAX; AAddRI RSP 40].
(** before the jump out of the loop, between, and the distances *)
Definition hk_head (k : consts) : list asm := hk_next k ++ [ACall RAX] ++ hk_test.
Definition hk_early (k : consts) (r : passinfo) (ps : list passinfo) : Z :=
  - off (hk_head k ++ [AJz 0] ++ hk_body k r ps ++ hk_cmp ++ [AJl 0]).
Definition hk_mid (k : consts) (r : passinfo) (ps : list passinfo) : list asm :=
  hk_body k r ps ++
  (if pi_size r =? 0 then [] else hk_cmp ++ [AJl (hk_early k r ps)] ++ hk_over k ++ assign_override r).
Definition hk_back (k : consts) (r : passinfo) (ps : list passinfo) : Z := - off (hk_head k ++ [AJz 0] ++ hk_mid k r ps ++ [AJump 0]).
Definition hk_out (k : consts) (r : passinfo) (ps : list passinfo) : Z := off (hk_mid k r ps ++ [AJump 0]).
Definition hk_loop (k : consts) (r : passinfo) (ps : list passinfo) : list asm :=
  hk_head k ++ [AJz (hk_out k r ps)] ++ hk_mid k r ps ++ [AJump (hk_back k r ps)].
Definition hk_list (k : consts) (r : passinfo) (ps : list passinfo) : list asm :=
  AMovMI (Rm RBP v_prev_res) MRES_IGNORED :: hk_loop k r ps.

Lemma off_cons a l : off (a :: l) = off [a] + off l.
Proof. change (a :: l) with ([a] ++ l). apply off_app. Qed.
Lemma off_jl d : off [AJl d] = 6. Proof. reflexivity. Qed.
Lemma off_jz d : off [AJz d] = 6. Proof. reflexivity. Qed.
Lemma off_je d : off [AJe d] = 6. Proof. reflexivity. Qed.
Lemma off_jump d : off [AJump d] = 5. Proof. reflexivity. Qed.
Ltac noff := repeat (rewrite off_app || match goal with |- context [off (?a :: ?l)] => lazymatch l with [] => fail | _ => rewrite (off_cons a l) end end);
  rewrite ?off_jl, ?off_jz, ?off_je, ?off_jump.

Lemma GenerateCallHooks_list k r ps pre : GenerateCallHooks k r ps (emit_all pre) = emit_all (pre ++ hk_list k r ps).
Proof.
  unfold GenerateCallHooks. rewrite (surjective_pairing (PushParameters r ps v_iter _)).
  fold (hk_ret r). fold (push_r r ps v_iter (hk_ret r)). fold (push_space r ps v_iter (hk_ret r)).
  set (b1 := put (emit_all pre) _).
  set (q := pre ++ [AMovMI (Rm RBP v_prev_res) MRES_IGNORED]).
  assert (E1 : b1 = emit_all q) by (unfold b1; apply put_emit).
  set (b2 := put b1 _). assert (E2 : b2 = emit_all ((q ++ hk_head k) ++ [AJz 0])).
  { unfold b2. rewrite E1, put_emit. f_equal. rewrite <- app_assoc. reflexivity. }
  set (b3 := put b2 _). assert (E3 : b3 = emit_all ((q ++ hk_head k) ++ AJz 0 :: hk_body k r ps)).
  { unfold b3. rewrite E2, put_emit. f_equal. rewrite <- !app_assoc. reflexivity. }
  set (b4 := if pi_size r =? 0 then b3 else _).
  assert (E4 : b4 = emit_all ((q ++ hk_head k) ++ AJz 0 :: hk_mid k r ps)).
  { unfold b4, hk_mid. destruct (pi_size r =? 0); [rewrite app_nil_r; exact E3|].
    set (c1 := put b3 _). assert (F1 : c1 = emit_all (((q ++ hk_head k) ++ AJz 0 :: hk_body k r ps ++ hk_cmp) ++ [AJl 0])).
    { unfold c1. rewrite E3, put_emit. f_equal. rewrite <- !app_assoc. cbn [app]. rewrite <- !app_assoc. reflexivity. }
    cbv zeta. set (c2 := rewrite32 c1 _ _).
    assert (F2 : c2 = emit_all (((q ++ hk_head k) ++ AJz 0 :: hk_body k r ps ++ hk_cmp) ++ [AJl (hk_early k r ps)])).
    { unfold c2. rewrite E1, F1, !opos_emit. set (w := (q ++ hk_head k) ++ AJz 0 :: hk_body k r ps ++ hk_cmp).
      rewrite (patch AJl w [] 0) by exact jumpy_jl. f_equal. f_equal. f_equal. f_equal.
      unfold hk_early, w. rewrite <- !app_assoc. rewrite !(off_app q).
      replace (hk_head k ++ (AJz 0 :: hk_body k r ps ++ hk_cmp) ++ [AJl 0]) with (hk_head k ++ [AJz 0] ++ hk_body k r ps ++ hk_cmp ++ [AJl 0]); [lia|].
      cbn [app]. rewrite <- !app_assoc. reflexivity. }
    rewrite F2, put_emit. f_equal. rewrite <- !app_assoc. cbn [app]. rewrite <- !app_assoc. reflexivity. }
  set (b5 := put b4 _). assert (E5 : b5 = emit_all ((q ++ hk_head k ++ [AJz 0] ++ hk_mid k r ps) ++ [AJump 0])).
  { unfold b5. rewrite E4, put_emit. f_equal. rewrite <- !app_assoc. reflexivity. }
  cbv zeta.
  set (b6 := rewrite32 b5 _ _).
  assert (E6 : b6 = emit_all ((q ++ hk_head k) ++ AJz 0 :: (hk_mid k r ps ++ [AJump (hk_back k r ps)]))).
  { unfold b6. rewrite E1, E5, !opos_emit. rewrite (patch AJump (q ++ hk_head k ++ [AJz 0] ++ hk_mid k r ps) [] 0) by exact jumpy_jump.
    f_equal. rewrite <- !app_assoc. f_equal. f_equal. cbn [app]. f_equal. f_equal. f_equal. f_equal. f_equal. unfold hk_back.
    rewrite !(off_app q). cbn [app]. lia. }
  rewrite E6, E2, !opos_emit. rewrite (patch AJz (q ++ hk_head k) (hk_mid k r ps ++ [AJump (hk_back k r ps)]) 0) by exact jumpy_jz.
  f_equal. unfold hk_list, hk_loop, q. rewrite <- !app_assoc. cbn [app]. f_equal. f_equal. f_equal. f_equal. f_equal.
  unfold hk_out. noff. lia.
Qed.

(** ** The call of the original function *)
Definition og_ret (r : passinfo) : Z := if MemRetWithTempObj r then v_mem_ret r else v_orig_ret r.
Definition og_status : list asm := [AMovRM RAX (Rm RBP v_status); ACmpRI RAX MRES_SUPERCEDE].
Definition og_should (k : consts) : list asm :=
  [ASubRI RSP 40; AMovRM RAX (Rm RBP v_pContext); AMovRR RCX RAX; AMovRM RAX (Rm RAX 0); AMovRM RAX (Rm RAX (SIZE_PTR * i_should k))].
Definition og_test : list asm := [AAddRI RSP 40; ATestRI RAX 1].
Definition og_call (r : passinfo) (ps : list passinfo) : list asm :=
  push_r r ps v_this (og_ret r) ++ [AMovRM RAX (Rm RBP v_vfnptr_origentry); ACall RAX; AAddRI RSP (push_space r ps v_this (og_ret r))]
  ++ SaveReturnValue r (v_mem_ret r) (v_orig_ret r).
Definition og_d2 (r : passinfo) (ps : list passinfo) : Z := off (og_call r ps ++ [AJump 0]).
Definition og_d1 (k : consts) (r : passinfo) (ps : list passinfo) : Z := off (og_should k ++ [ACall RAX] ++ og_test ++ [AJz 0]) + og_d2 r ps.
Definition og_d3 (r : passinfo) : Z := off (orig_from_override r).
Definition og_list (k : consts) (r : passinfo) (ps : list passinfo) : list asm :=
  og_status ++ [AJe (og_d1 k r ps)] ++ og_should k ++ [ACall RAX] ++ og_test ++ [AJz (og_d2 r ps)] ++ og_call r ps ++ [AJump (og_d3 r)]
  ++ orig_from_override r.

Lemma GenerateCallOrig_list k r ps pre : GenerateCallOrig k r ps (emit_all pre) = emit_all (pre ++ og_list k r ps).
Proof.
  unfold GenerateCallOrig. rewrite (surjective_pairing (PushParameters r ps v_this _)).
  fold (og_ret r). fold (push_r r ps v_this (og_ret r)). fold (push_space r ps v_this (og_ret r)).
  set (b1 := put (emit_all pre) _). assert (E1 : b1 = emit_all ((pre ++ og_status) ++ [AJe 0])).
  { unfold b1. rewrite put_emit. f_equal. rewrite <- !app_assoc. reflexivity. }
  set (w := og_should k ++ [ACall RAX] ++ og_test).
  set (b2 := put b1 _). assert (E2 : b2 = emit_all ((pre ++ og_status) ++ AJe 0 :: w ++ [AJz 0])).
  { unfold b2, w. rewrite E1, put_emit. f_equal. rewrite <- !app_assoc. reflexivity. }
  set (b3 := put b2 _). assert (E3 : b3 = emit_all ((pre ++ og_status) ++ AJe 0 :: w ++ AJz 0 :: og_call r ps ++ [AJump 0])).
  { unfold b3. rewrite E2, put_emit. f_equal. unfold w, og_call. rewrite <- !app_assoc. cbn [app]. rewrite <- !app_assoc. reflexivity. }
  cbv zeta. set (b4 := rewrite32 b3 (opos b1 - 4) _).
  assert (E4 : b4 = emit_all (((pre ++ og_status) ++ AJe (og_d1 k r ps) :: w) ++ AJz 0 :: og_call r ps ++ [AJump 0])).
  { unfold b4. rewrite E1, E3, !opos_emit. rewrite (patch AJe (pre ++ og_status) (w ++ AJz 0 :: og_call r ps ++ [AJump 0]) 0) by exact jumpy_je.
    f_equal. rewrite <- !app_assoc. cbn [app]. f_equal. f_equal. f_equal. f_equal.
    unfold og_d1, og_d2, w. noff. lia. }
  set (b5 := rewrite32 b4 _ _).
  assert (E5 : b5 = emit_all (((pre ++ og_status) ++ AJe (og_d1 k r ps) :: w) ++ AJz (og_d2 r ps) :: og_call r ps ++ [AJump 0])).
  { unfold b5. rewrite E4, E2, E3, !opos_emit.
    replace (off ((pre ++ og_status) ++ AJe 0 :: w ++ [AJz 0]) - 4) with (off (((pre ++ og_status) ++ AJe (og_d1 k r ps) :: w) ++ [AJz 0]) - 4).
    2:{ noff. lia. }
    rewrite (patch AJz ((pre ++ og_status) ++ AJe (og_d1 k r ps) :: w) (og_call r ps ++ [AJump 0]) 0) by exact jumpy_jz.
    f_equal. f_equal. f_equal. f_equal. unfold og_d2. noff. lia. }
  set (b6 := put b5 _).
  assert (E6 : b6 = emit_all ((((pre ++ og_status) ++ AJe (og_d1 k r ps) :: w) ++ AJz (og_d2 r ps) :: og_call r ps) ++ AJump 0 :: orig_from_override r)).
  { unfold b6. rewrite E5, put_emit. f_equal. rewrite <- !app_assoc. cbn [app]. rewrite <- !app_assoc. reflexivity. }
  rewrite E6, E3, !opos_emit.
  replace (off ((pre ++ og_status) ++ AJe 0 :: w ++ AJz 0 :: og_call r ps ++ [AJump 0]) - 4)
    with (off ((((pre ++ og_status) ++ AJe (og_d1 k r ps) :: w) ++ AJz (og_d2 r ps) :: og_call r ps) ++ [AJump 0]) - 4).
  2:{ noff. lia. }
  rewrite (patch AJump (((pre ++ og_status) ++ AJe (og_d1 k r ps) :: w) ++ AJz (og_d2 r ps) :: og_call r ps) (orig_from_override r) 0) by exact jumpy_jump.
  f_equal. unfold og_list, w. rewrite <- !app_assoc. cbn [app]. rewrite <- !app_assoc. cbn [app]. rewrite <- ?app_assoc.
  repeat (f_equal; try reflexivity).
  unfold og_d3. noff. lia.
Qed.

Definition hook_list (k : consts) (r : passinfo) (ps : list passinfo) : list asm :=
  prologue r ps ++ CallSetupHookLoop k r ++ hk_list k r ps ++ og_list k r ps ++ hk_list k r ps ++ epilogue k r ps.
Lemma hook_func_list k r ps : hook_func k r ps = emit_all (hook_list k r ps).
Proof.
  unfold hook_func. change (put [] (prologue r ps ++ CallSetupHookLoop k r)) with (put (emit_all []) (prologue r ps ++ CallSetupHookLoop k r)).
  rewrite put_emit, GenerateCallHooks_list, GenerateCallOrig_list, GenerateCallHooks_list, put_emit.
  unfold hook_list. cbn [app]. rewrite <- !app_assoc. reflexivity.
Qed.
