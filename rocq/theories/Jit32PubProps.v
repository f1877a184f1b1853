(** C68: the public function of a hook manager generated for 32-bit x86. *)
From Coq Require Import List ZArith Bool Lia.
From Verif Require Import TrampModel ProtoModel GenModel Asm32Model Asm32Spec Asm32Proofs Mach32 Mach32Proofs Jit32Model Jit32Spec Jit32Steps Jit32Base Jit32PubProofs.
Import ListNotations.
Local Open Scope Z_scope.
Notation length := List.length.

(** Run the generated bytes on a processor, from the entry of the function, for either compiler, with
    any contents of registers and memory and any two arguments.  The function SetInfo that is called may
    do anything but must return as the calling convention says.  The variable m_pHI, the object hi and
    its vtable are not in the 32 bytes below the stack pointer.  Then execution reaches a return
    instruction that leaves the arguments to the caller (cdecl), with the stack pointer and return
    address of the entry, 0 as result, and ebx, ebp, esi, edi unchanged.  It has called hi->SetInfo, found in the vtable of
    hi, once if hi is not NULL and called nothing otherwise; the call had the arguments (hi, version, vtable
    offset, index, prototype, function), found where a function of that compiler looks for them. Memory is what it was,
    but for *m_pHI if the caller asked for storing, 32 bytes below the stack pointer and what SetInfo did. *)
Theorem C68_pubfunc : forall u base env gcc k s0,
  consts_ok k -> wf s0 -> 2 ^ 12 <= rg s0 ESP < W32 - 2 ^ 12 -> pc s0 = 0 ->
  ~ (rg s0 ESP - 36 < w32 (k_phi k) < rg s0 ESP + 12) /\ w32 (k_phi k) <= W32 - 4 ->
  (forall n t s, wf s -> setinfo_returns gcc s (env n t s)) ->
  let p := PubInfo (k_phi k) 1 (k_offs k) (k_idx k) (k_pi k) (k_vfn k) in
  (arg s0 1 <> 0 -> let m := pub_mem p s0 in let hi := arg s0 1 in
    hi <= W32 - 4 /\ ~ (rg s0 ESP - 36 < hi < rg s0 ESP) /\ ld4 m hi <= W32 - 4 /\ ~ (rg s0 ESP - 36 < ld4 m hi < rg s0 ESP)) ->
  exists tr s, reaches u base env (pub_func gcc k) (s0, []) (s, tr) /\
    at_ret (pub_func gcc k) 0 s /\ rg s ESP = rg s0 ESP /\ rg s EAX = 0 /\ saved s0 s /\ fp s = fp s0 /\
    ld4 (mm s) (rg s0 ESP) = ld4 (mm s0) (rg s0 ESP) /\
    match tr with
    | [] => arg s0 1 = 0 /\ same_but (rg s0 ESP) 32 (pub_mem p s0) (mm s)
    | [e] => arg s0 1 <> 0 /\ setinfo_call gcc p s0 e /\ mm s = mm (e_out e)
    | _ => False
    end.
Proof.
  intros u base env gcc k s0 Hk Hwf Hsp Hpc Hphi Henv p Hhi.
  destruct (pub_run u base env gcc k s0 Hk Hwf Hsp Hpc Hphi Henv Hhi) as (tr & s & G & H).
  exists tr, s. split; [exact G|]. rewrite pub_func_list. exact H.
Qed.
Print Assumptions C68_pubfunc.

(** The run is the only one: two runs to a return instruction are the same. *)
Theorem C68_deterministic : forall u base env code c c1 c2 n1 n2,
  reaches u base env code c c1 -> reaches u base env code c c2 ->
  at_ret code n1 (fst c1) -> at_ret code n2 (fst c2) -> c1 = c2.
Proof.
  intros u base env code c c1 c2 n1 n2 H1. revert c2.
  assert (N : forall n s tr, at_ret code n s -> step u base env code (s, tr) = None).
  { intros n s tr (q & F). unfold step. rewrite F. reflexivity. }
  induction H1 as [[s tr]|[s tr] d e S1 H1 IH]; intros c2 H2 A1 A2.
  - cbn [fst] in A1. inversion H2 as [|? ? ? S2 _]; subst; [reflexivity|]. rewrite (N _ _ _ A1) in S2. discriminate S2.
  - inversion H2 as [? E|? d' ? S2 H2']; subst.
    + cbn [fst] in A2. rewrite (N _ _ _ A2) in S1. discriminate S1.
    + rewrite S1 in S2. inversion S2; subst d'. apply IH; assumption.
Qed.
Print Assumptions C68_deterministic.

(** Non-vacuity: constants, a state with an hi and the flag, and a SetInfo for either compiler that
    overwrites eax, ecx and edx. *)
Definition ex_k : consts := Consts (2 ^ 20) (2 ^ 20 + 64) (2 ^ 21) (2 ^ 21 + 64) (-8) 5 (2 ^ 22) (2 ^ 22 + 8) (2 ^ 23) (2 ^ 23 + 8).
Definition ex_s : st := St (fun r => if r =? 4 then 2 ^ 24 else 9) [] true false false false (fun x => x mod 7) 0.
Definition ex_env (gcc : bool) : nat -> Z -> st -> st :=
  fun _ _ s => set_rg (set_rg (set_rg (set_rg s EAX 77) ECX 78) EDX 79) ESP (w32 (rg s ESP + 4 + (if gcc then 0 else 20))).
Example C68_example : forall gcc, let p := PubInfo (k_phi ex_k) 1 (k_offs ex_k) (k_idx ex_k) (k_pi ex_k) (k_vfn ex_k) in
  consts_ok ex_k /\ wf ex_s /\ 2 ^ 12 <= rg ex_s ESP < W32 - 2 ^ 12 /\ pc ex_s = 0 /\
  (~ (rg ex_s ESP - 36 < w32 (k_phi ex_k) < rg ex_s ESP + 12) /\ w32 (k_phi ex_k) <= W32 - 4) /\
  (forall n t s, wf s -> setinfo_returns gcc s (ex_env gcc n t s)) /\
  (let m := pub_mem p ex_s in let hi := arg ex_s 1 in
    hi <= W32 - 4 /\ ~ (rg ex_s ESP - 36 < hi < rg ex_s ESP) /\ ld4 m hi <= W32 - 4 /\ ~ (rg ex_s ESP - 36 < ld4 m hi < rg ex_s ESP)) /\
  arg ex_s 1 <> 0 /\ store_flag ex_s = true.
Proof.
  intros gcc p.
  split; [unfold consts_ok, int32_ok; cbn [ex_k k_phi k_sh k_setup k_end k_offs k_idx k_pi k_vfn k_vsn k_fmt]; lia|].
  split; [split|].
  - intros r. cbn [ex_s rg]. unfold W32. destruct (r =? 4); lia.
  - intros x. cbn [ex_s mm]. pose proof (Z.mod_pos_bound x 7). lia.
  - split; [unfold W32; cbn [ex_s rg ESP Z.eqb Pos.eqb]; lia|]. split; [reflexivity|].
    split; [split; [vm_compute; intros [H1 H2]; discriminate | vm_compute; discriminate]|].
    split; [|split; [|split; [vm_compute; discriminate | reflexivity]]].
    + intros n t s (W1 & W2). unfold ex_env. split; [split|split; [|split; [|split]]].
      * intros r. cbn [set_rg rg]. unfold upd. unfold EAX, ECX, EDX, ESP.
        destruct (r =? 4); [apply w32_range|]. destruct (r =? 2); [unfold W32; lia|]. destruct (r =? 1); [unfold W32; lia|]. destruct (r =? 0); [unfold W32; lia|]. apply W1.
      * exact W2.
      * intros r Hr. cbn [set_rg rg]. unfold nonvolatile in Hr. cbn [In] in Hr. destruct Hr as [<- | [<- | [<- | [<- | []]]]]; reflexivity.
      * reflexivity.
      * reflexivity.
      * intros x _. reflexivity.
    + assert (D : forall b, b = true -> b <> false) by (intros; congruence).
      split; [vm_compute; discriminate|]. split; [vm_compute; intros [H1 H2]; congruence|]. split; [vm_compute; discriminate|]. vm_compute; intros [H1 H2]; congruence.
Qed.
