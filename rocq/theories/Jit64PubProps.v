(** C61: the public function of a hook manager generated for x86-64 (MSVC). *)
From Coq Require Import List ZArith Bool Lia.
From Verif Require Import TrampModel ProtoModel GenModel Asm64Model Asm64Spec Asm64Proofs Mach64 Mach64Proofs Jit64Model Jit64Spec Jit64Base Jit64PubProofs.
Import ListNotations.
Local Open Scope Z_scope.
Notation length := List.length.

(** Run the generated bytes on a processor, from the entry of the function, with any contents of
    registers and memory and any two arguments.  The function SetInfo that is called may do anything
    but must keep the nonvolatile registers.  Then execution reaches a return instruction with the
    stack pointer of the entry, 0 as result and the nonvolatile registers unchanged.  It has called
    hi->SetInfo, found in the vtable of hi, once if hi is not NULL and called nothing otherwise; the call
    had an aligned stack and the arguments (hi, version, vtable offset, index, prototype, function).  Memory is
    what it was, but for *m_pHI if the caller asked for storing, 64 bytes below the stack pointer
    and what SetInfo did. *)
Theorem C61_pubfunc : forall base env k s0,
  consts_ok k -> wf s0 -> aligned s0 -> 2 ^ 12 <= rg s0 RSP < W64 - 2 ^ 12 -> pc s0 = 0 ->
  (forall n t s, saved s (env n t s)) ->
  let p := PubInfo (k_phi k) (i_setinfo k) 1 (k_offs k) (k_idx k) (k_pi k) (k_vfn k) in
  exists tr s, reaches base env (pub_func k) (s0, []) (s, tr) /\
    at_ret (pub_func k) s /\ rg s RSP = rg s0 RSP /\ rg s RAX = 0 /\ saved s0 s /\
    match tr with
    | [] => arg s0 1 = 0 /\ mm s = pub_mem p s0
    | [e] => arg s0 1 <> 0 /\ setinfo_call p s0 e /\ mm s = mm (e_out e)
    | _ => False
    end.
Proof.
  intros base env k s0 Hk Hwf Hal Hsp Hpc Henv p.
  destruct (run_pub base env k s0 Hk Hwf Hal Hsp Hpc Henv) as (tr & s & G & (R1 & R2 & R3 & R4 & R5) & T).
  exists tr, s. rewrite pub_func_list. split; [exact G|]. split; [exact R1|]. split; [exact R2|]. split; [exact R3|]. split; [exact R4|].
  destruct tr as [|e [|e' tr]]; [split; [exact T|exact R5]| |exact T].
  destruct T as [T1 T2]. split; [exact T1|]. split; [exact T2|exact R5].
Qed.
Print Assumptions C61_pubfunc.

(** What comes after the return instruction is determined: the run is the only one. *)
Theorem C61_deterministic : forall base env code c c1 c2,
  reaches base env code c c1 -> reaches base env code c c2 ->
  at_ret code (fst c1) -> at_ret code (fst c2) -> c1 = c2.
Proof.
  intros base env code c c1 c2 H1. revert c2.
  assert (N : forall s tr, at_ret code s -> step base env code (s, tr) = None).
  { intros s tr (q & F). unfold step. rewrite F. reflexivity. }
  induction H1 as [[s tr]|[s tr] d e S1 H1 IH]; intros c2 H2 A1 A2.
  - cbn [fst] in A1. inversion H2 as [|? ? ? S2 _]; subst; [reflexivity|]. rewrite (N _ _ A1) in S2. discriminate S2.
  - inversion H2 as [? E|? d' ? S2 H2']; subst.
    + cbn [fst] in A2. rewrite (N _ _ A2) in S1. discriminate S1.
    + rewrite S1 in S2. inversion S2; subst d'. apply IH; assumption.
Qed.
Print Assumptions C61_deterministic.

(** Non-vacuity: constants, a state and a called function that overwrites the volatile registers. *)
Definition ex_k : consts := Consts (2 ^ 41) (2 ^ 42) (2 ^ 43) (2 ^ 43 + 64) (-8) 5 (2 ^ 44) (2 ^ 44 + 8) 2 1 2 3 4 5.
Definition ex_s : st := St (fun r => if r =? 4 then 2 ^ 40 + 8 else if r =? 1 then 1 else if r =? 2 then 2 ^ 45 else 9) (fun _ => 0) true false false (fun x => x mod 7) 0.
Definition ex_env : nat -> Z -> st -> st := fun _ _ s => set_rg (set_rg s RAX 77) RCX 78.
Example C61_example : consts_ok ex_k /\ wf ex_s /\ aligned ex_s /\ 2 ^ 12 <= rg ex_s RSP < W64 - 2 ^ 12 /\ pc ex_s = 0 /\
  (forall n t s, saved s (ex_env n t s)) /\ arg ex_s 1 <> 0 /\ store_flag ex_s = true.
Proof.
  assert (B : forall lo x hi : Z, (lo <=? x) && (x <? hi) = true -> lo <= x < hi).
  { intros lo x hi0 H. apply andb_prop in H. destruct H as [H1 H2]. apply Z.leb_le in H1. apply Z.ltb_lt in H2. lia. }
  split; [unfold consts_ok, uint64_ok, int32_ok; repeat split; try (apply Z.leb_le; reflexivity); try (apply Z.ltb_lt; reflexivity)|].
  split; [unfold wf|].
  - split; [|split].
    + intros r. cbn [ex_s rg]. destruct (r =? 4); [|destruct (r =? 1); [|destruct (r =? 2)]]; apply B; reflexivity.
    + intros x. apply B; reflexivity.
    + intros x. cbn [ex_s mm]. pose proof (Z.mod_pos_bound x 7). lia.
  - split; [reflexivity|]. split; [apply B; reflexivity|]. split; [reflexivity|]. split; [|split; [discriminate|reflexivity]].
    intros n t s r Hin. unfold ex_env. cbn [set_rg rg]. rewrite !upd_diff; [reflexivity| |]; intros ->; cbn in Hin; intuition discriminate.
Qed.
