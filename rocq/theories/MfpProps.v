(** C66: the vtable slot that the macros hook is the slot that calls of the function use. *)
From Coq Require Import List ZArith Bool Lia.
From Verif Require Import MfpModel MfpSpec MfpProofs.
Import ListNotations.
Local Open Scope Z_scope.
Notation length := List.length.

Lemma macros_use_intro P mem own st obj delta n : psize_ok P -> 0 <= obj < 2 ^ (8 * P) -> 0 <= delta ->
  own = Mfi true delta n 0 -> st = Mfi true delta n 0 ->
  macros_use P mem own st obj ((obj + delta) mod 2 ^ (8 * P))
    ((ldb P mem ((obj + delta) mod 2 ^ (8 * P)) (Z.to_nat P) + n * P) mod 2 ^ (8 * P)).
Proof.
  intros HP Ho Hd -> ->. unfold macros_use, add_hook_slot, our_vfnptr, call_slot, iface_ptr, ldp. cbn [thisptroffs isVirtual vtbloffs vtblindex negb].
  rewrite (proj2 (Z.ltb_ge delta 0)) by lia. cbn [orb]. rewrite !Z.add_0_r.
  change ((obj + delta) mod 2 ^ (8 * P)) with (wp P (obj + delta)). rewrite !wp_idem.
  split; [reflexivity|]. split; [reflexivity|]. split; [reflexivity|].
  rewrite wp_sub. rewrite wp_small; [lia|lia].
Qed.

(** *** GCC, 32 and 64 bits: whatever object, memory and pointer to a virtual member function *)
Theorem C66_gcc : forall P mem m obj slot this,
  psize_ok P -> 0 <= obj < 2 ^ (8 * P) -> 0 <= g_ptr m < 2 ^ (8 * P) ->
  0 <= g_adj m < 2 ^ 31 -> (g_ptr m - 1) mod P = 0 -> (g_ptr m - 1) / P < 2 ^ 31 ->
  abi_call P mem m obj = (Slot slot, this) ->
  macros_use P mem (gcc_info P m mfi_init) (gcc_info P m mfi_static) obj this slot
  (* RETURN_META_NEWPARAMS calls the function again on META_IFACEPTR: same slot, same this *)
  /\ abi_call P mem m (iface_ptr P (gcc_info P m mfi_init) this) = (Slot slot, this).
Proof.
  intros P mem m obj slot this HP Ho Hr Ha Hm Hn E. pose proof E as E'. unfold abi_call in E.
  destruct (Z.eqb_spec (g_ptr m mod 2) 1) as [Odd|]; [|discriminate E].
  destruct (gcc_virtual P m mfi_init HP Hr Odd Ha Hm Hn) as (n1 & I1 & N1).
  destruct (gcc_virtual P m mfi_static HP Hr Odd Ha Hm Hn) as (n2 & I2 & N2).
  assert (n1 = n2) as <- by (destruct HP; subst P; lia).
  pose proof (macros_use_intro P mem _ _ obj (g_adj m) n1 HP Ho ltac:(lia) I1 I2) as K. rewrite N1 in K.
  pose proof (f_equal (fun p => match fst p with Slot s => s | Direct f => f end) E) as E1. cbv beta iota delta [fst] in E1.
  pose proof (f_equal snd E) as E2. cbv beta iota delta [snd] in E2. rewrite E1, E2 in K. split; [exact K|].
  destruct K as (_ & _ & _ & ->). exact E'.
Qed.
Print Assumptions C66_gcc.

(** For the pointer the compiler makes for the n-th virtual function of the subobject at [delta],
    the slot is the n-th entry of the vtable that the subobject points to. *)
Theorem C66_gcc_function : forall P mem n delta obj,
  psize_ok P -> 0 <= obj < 2 ^ (8 * P) -> 0 <= n < 2 ^ 29 -> 0 <= delta < 2 ^ 31 ->
  let m := abi_virtual P n delta in
  let sub := (obj + delta) mod 2 ^ (8 * P) in
  macros_use P mem (gcc_info P m mfi_init) (gcc_info P m mfi_static) obj sub
    ((ldb P mem sub (Z.to_nat P) + n * P) mod 2 ^ (8 * P)).
Proof.
  intros P mem n delta obj HP Ho Hn Hd m sub.
  assert (B : 1 + n * P < 2 ^ (8 * P)) by (destruct HP; subst P; cbn [Z.mul Pos.mul]; lia).
  assert (Odd : (1 + n * P) mod 2 = 1).
  { destruct HP; subst P; [replace (1 + n * 4) with (1 + (2 * n) * 2) by ring|replace (1 + n * 8) with (1 + (4 * n) * 2) by ring];
      rewrite Z.mod_add by lia; reflexivity. }
  assert (X : (1 + n * P - 1) = n * P) by ring.
  apply (C66_gcc P mem m obj); unfold m, abi_virtual; cbn [g_ptr g_adj]; rewrite ?X; try assumption; try lia.
  - destruct HP; subst P; lia.
  - destruct HP; subst P; apply Z.mod_mul; lia.
  - rewrite Z.div_mul by (destruct HP; subst P; lia). lia.
  - unfold abi_call. cbn [g_ptr g_adj]. rewrite Odd. cbn [Z.eqb Pos.eqb]. rewrite X. reflexivity.
Qed.
Print Assumptions C66_gcc_function.

(** Non-virtual functions are refused, and negative adjustments in 32 bits. *)
Theorem C66_gcc_refused : forall P mem m st obj,
  g_ptr m mod 2 = 0 \/ (P = 4 /\ 2 ^ 31 <= g_adj m < 2 ^ 32) -> add_hook_slot P mem (gcc_info P m mfi_init) st obj = None.
Proof.
  intros P mem m st obj H. unfold add_hook_slot.
  assert (K : (thisptroffs (gcc_info P m mfi_init) <? 0) || negb (isVirtual (gcc_info P m mfi_init)) = true).
  { apply orb_true_iff. destruct H as [H|[-> H]].
    - right. unfold gcc_info. assert (Z.odd (g_ptr m) = false) as -> by (rewrite Zmod_odd in H; destruct (Z.odd (g_ptr m)); lia). reflexivity.
    - left. apply Z.ltb_lt. unfold gcc_info. pose proof (cint_big _ H). destruct (Z.odd (g_ptr m)); cbn [thisptroffs]; lia. }
  rewrite K. reflexivity.
Qed.
Print Assumptions C66_gcc_refused.

(** The call of the original function in a hook function: the pointer made by SH_SETUP_MFP calls the
    entry itself if that is even (odd entries: the thunk of property C32, which is 16-aligned). *)
Theorem C66_gcc_original : forall P mem entry this, 0 <= this < 2 ^ (8 * P) -> entry mod 2 = 0 ->
  abi_call P mem (setup_mfp entry) this = (Direct entry, this).
Proof.
  intros P mem entry this Ht He. unfold abi_call, setup_mfp. cbn [g_ptr g_adj]. rewrite He, Z.add_0_r. cbn [Z.eqb].
  rewrite Z.mod_small by exact Ht. reflexivity.
Qed.
Print Assumptions C66_gcc_original.

(** Without that thunk an odd entry would be taken for an offset into the vtable. *)
Theorem C66_gcc_odd_refuted : forall P mem entry this, entry mod 2 = 1 -> exists slot this',
  abi_call P mem (setup_mfp entry) this = (Slot slot, this').
Proof.
  intros P mem entry this He. unfold abi_call, setup_mfp. cbn [g_ptr g_adj]. rewrite He. cbn [Z.eqb Pos.eqb]. eexists. eexists. reflexivity.
Qed.
Print Assumptions C66_gcc_odd_refuted.

(** *** MSVC, 32 bits: single and multiple inheritance.  [va]: the function has variable arguments;
    [leads_to]: directly or through a jump of the incremental linker. *)
Theorem C66_msvc32 : forall mem code a va n ints obj vbptr,
  0 <= obj < 2 ^ 32 -> 0 <= n < 2 ^ 29 -> leads_to 4 mem code a -> in_mem 4 mem a (thunk32 va n) ->
  ints = [] \/ (exists delta, ints = [delta] /\ 0 <= delta < 2 ^ 31) ->
  exists this slot own st,
    ms_this 4 mem vbptr ints obj = Some this
    /\ calls_slot32 mem code va this slot
    /\ slot = (ldb 4 mem this 4 + n * 4) mod 2 ^ 32
    /\ msvc_info 4 mem (Mmfp code ints) mfi_init = Some own /\ msvc_info 4 mem (Mmfp code ints) mfi_static = Some st
    /\ macros_use 4 mem own st obj this slot.
Proof.
  intros mem code a va n ints obj vbptr Ho Hn Hl Ht Hi.
  pose proof (index32 mem code a va n ltac:(lia) Hl Ht) as Ix.
  assert (C : exists delta, 0 <= delta < 2 ^ 31 /\ ms_this 4 mem vbptr ints obj = Some ((obj + delta) mod 2 ^ 32) /\
    forall out, msvc_info 4 mem (Mmfp code ints) out = Some (Mfi true delta n 0)).
  { destruct Hi as [->|(delta & -> & Hd)].
    - exists 0. split; [lia|]. split; [cbn; rewrite Z.add_0_r; reflexivity|].
      intros out. unfold msvc_info. cbn [m_code m_ints]. rewrite Ix. change (m_words 4 (Mmfp code [])) with 1. cbn [Z.eqb Pos.eqb].
      rewrite (proj2 (Z.leb_le 0 n)) by lia. reflexivity.
    - exists delta. split; [exact Hd|]. split; [reflexivity|].
      intros out. unfold msvc_info. cbn [m_code m_ints]. rewrite Ix. change (m_words 4 (Mmfp code [delta])) with 2. cbn [Z.eqb Pos.eqb].
      rewrite (proj2 (Z.leb_le 0 n)) by lia. reflexivity. }
  destruct C as (delta & Hd & Em & Ei). exists ((obj + delta) mod 2 ^ 32). eexists. exists (Mfi true delta n 0), (Mfi true delta n 0).
  split; [exact Em|]. split; [|split; [reflexivity|split; [apply Ei|split; [apply Ei|]]]].
  - intros rg Hp. destruct (run_thunk32 mem va n a _ ltac:(lia) Ht rg Hp) as (k & rg' & E & R).
    destruct (run_leads32 mem code a Hl k rg _ E) as (k' & E'). rewrite Zmod_mod in E'. rewrite (Z.mul_comm 4 n) in E'.
    exists k', rg'. split; [exact E'|exact R].
  - apply (macros_use_intro 4 mem _ _ obj delta n); try reflexivity; try lia. left. reflexivity.
Qed.
Print Assumptions C66_msvc32.

(** ... and 64 bits, if the jump of the incremental linker goes forward. *)
Theorem C66_msvc64 : forall mem code a n ints obj vbptr,
  0 <= obj < 2 ^ 64 -> 0 <= n < 2 ^ 28 -> jumps_forward 8 mem code a -> in_mem 8 mem a (thunk64 n) ->
  ints = [] \/ (exists delta, ints = [delta] /\ 0 <= delta < 2 ^ 31) ->
  exists this slot own st,
    ms_this 8 mem vbptr ints obj = Some this
    /\ calls_slot64 mem code this slot
    /\ slot = (ldb 8 mem this 8 + n * 8) mod 2 ^ 64
    /\ msvc_info 8 mem (Mmfp code ints) mfi_init = Some own /\ msvc_info 8 mem (Mmfp code ints) mfi_static = Some st
    /\ macros_use 8 mem own st obj this slot.
Proof.
  intros mem code a n ints obj vbptr Ho Hn Hl Ht Hi.
  pose proof (index64 mem code a n ltac:(lia) Hl Ht) as Ix.
  assert (C : exists delta, 0 <= delta < 2 ^ 31 /\ ms_this 8 mem vbptr ints obj = Some ((obj + delta) mod 2 ^ 64) /\
    forall out, msvc_info 8 mem (Mmfp code ints) out = Some (Mfi true delta n 0)).
  { destruct Hi as [->|(delta & -> & Hd)].
    - exists 0. split; [lia|]. split; [cbn; rewrite Z.add_0_r; reflexivity|].
      intros out. unfold msvc_info. cbn [m_code m_ints]. rewrite Ix. change (m_words 8 (Mmfp code [])) with 1. cbn [Z.eqb Pos.eqb].
      rewrite (proj2 (Z.leb_le 0 n)) by lia. reflexivity.
    - exists delta. split; [exact Hd|]. split; [reflexivity|].
      intros out. unfold msvc_info. cbn [m_code m_ints]. rewrite Ix. change (m_words 8 (Mmfp code [delta])) with 2. cbn [Z.eqb Pos.eqb].
      rewrite (proj2 (Z.leb_le 0 n)) by lia. reflexivity. }
  destruct C as (delta & Hd & Em & Ei). exists ((obj + delta) mod 2 ^ 64). eexists. exists (Mfi true delta n 0), (Mfi true delta n 0).
  split; [exact Em|]. split; [|split; [reflexivity|split; [apply Ei|split; [apply Ei|]]]].
  - assert (Hl' : leads_to 8 mem code a) by (destruct Hl as [E|(d & Hr & K)]; [left; exact E|right; exists d; split; [lia|exact K]]).
    intros rg Hp. destruct (run_thunk64 mem n a _ ltac:(lia) Ht rg Hp) as (k & rg' & E & R).
    destruct (run_leads64 mem code a Hl' k rg _ E) as (k' & E'). rewrite Zmod_mod in E'. rewrite (Z.mul_comm 8 n) in E'.
    exists k', rg'. split; [exact E'|exact R].
  - apply (macros_use_intro 8 mem _ _ obj delta n); try reflexivity; try lia. right. reflexivity.
Qed.
Print Assumptions C66_msvc64.

(** Whatever code is taken for a virtual function in 32 bits does end in a jump through the object's
    vtable, with the displacement from which the index was computed unless that is negative. *)
Theorem C66_msvc32_sound : forall mem code n, (forall a, 0 <= mem a < 256) ->
  vtbl_offset 4 mem code = n -> 0 <= n ->
  exists va d, - 2 ^ 31 <= d < 2 ^ 31 /\ (0 <= d -> n = d / 4) /\
    forall this, calls_slot32 mem code va this ((ldb 4 mem (this mod 2 ^ 32) 4 + d) mod 2 ^ 32).
Proof. intros mem code n Hb E Hn. exact (sound32 mem Hb code n E Hn). Qed.
Print Assumptions C66_msvc32_sound.

(** Virtual inheritance is refused in 32 bits. *)
Theorem C66_msvc32_refused : forall mem code delta vp ix own st obj,
  (msvc_info 4 mem (Mmfp code [delta; ix]) mfi_init = Some own
   \/ ix <> 0 /\ msvc_info 4 mem (Mmfp code [delta; vp; ix]) mfi_init = Some own) ->
  add_hook_slot 4 mem own st obj = None.
Proof.
  intros mem code delta vp ix own st obj [H|[N H]]; unfold msvc_info in H; cbn [m_code m_ints nth] in H.
  - change (m_words 4 (Mmfp code [delta; ix])) with 3 in H. cbn [Z.eqb Pos.eqb] in H. inversion H; subst. reflexivity.
  - change (m_words 4 (Mmfp code [delta; vp; ix])) with 4 in H. cbn [Z.eqb Pos.eqb] in H.
    rewrite (proj2 (Z.eqb_neq ix 0) N) in H. cbn [negb] in H. inversion H; subst. reflexivity.
Qed.
Print Assumptions C66_msvc32_refused.

(** *** Where it goes wrong *)
Definition mem_of (l : list (Z * list Z)) : Z -> Z :=
  fun a => match find (fun p => (fst p <=? a) && (a <? fst p + Z.of_nat (length (snd p)))) l with
           | Some p => nth (Z.to_nat (a - fst p)) (snd p) 0 | None => 0 end.

(** GCC: SH_CALL of a non-virtual function ignores the hooks on the first virtual function *)
Theorem C66_call_nonvirtual_refuted : forall P mem m obj, psize_ok P -> g_ptr m mod 2 = 0 ->
  call_slot P mem (gcc_info P m mfi_init) obj = call_slot P mem (gcc_info P (abi_virtual P 0 (g_adj m)) mfi_init) obj.
Proof.
  intros P mem m obj HP H. unfold gcc_info at 1. assert (Z.odd (g_ptr m) = false) as -> by (rewrite Zmod_odd in H; destruct (Z.odd (g_ptr m)); lia).
  destruct HP as [->| ->]; reflexivity.
Qed.
Print Assumptions C66_call_nonvirtual_refuted.

(** GCC, 64 bits: an adjustment of 4 GB is lost *)
Theorem C66_gcc_truncation_refuted :
  ~ (forall mem m obj slot this, 0 <= obj < 2 ^ 64 -> abi_call 8 mem m obj = (Slot slot, this) -> g_adj m < 2 ^ 63 ->
       forall r, add_hook_slot 8 mem (gcc_info 8 m mfi_init) (gcc_info 8 m mfi_static) obj = Some r -> r = (this, slot)).
Proof.
  intros K. specialize (K (fun _ => 0) (abi_virtual 8 0 (2 ^ 32)) 4096 _ _ ltac:(lia) eq_refl ltac:(cbn; lia) _ eq_refl).
  vm_compute in K. discriminate K.
Qed.
Print Assumptions C66_gcc_truncation_refuted.

(** MSVC, 64 bits: the thunk behind a jump that goes backward is not recognised: the code at 8192
    jumps to the thunk at 4096, the index is computed from what lies 4 GB further up *)
Theorem C66_msvc64_backward_refuted :
  ~ (forall mem code a n, 0 <= n < 2 ^ 28 -> leads_to 8 mem code a -> in_mem 8 mem a (thunk64 n) -> vtbl_offset 8 mem code = n).
Proof.
  intros K. set (mem := mem_of [(8192, 233 :: bytes_le 4 (-4101)); (4096, thunk64 2)]).
  specialize (K mem 8192 4096 2 ltac:(lia)).
  assert (L : leads_to 8 mem 8192 4096).
  { right. exists (-4101). split; [lia|]. split; [|reflexivity]. intros i x Hi.
    do 5 (destruct i as [|i]; [inversion Hi; subst; reflexivity|]). destruct i; discriminate Hi. }
  specialize (K L). assert (T : in_mem 8 mem 4096 (thunk64 2)).
  { intros i x Hi. do 6 (destruct i as [|i]; [inversion Hi; subst; reflexivity|]). destruct i; discriminate Hi. }
  specialize (K T). vm_compute in K. discriminate K.
Qed.
Print Assumptions C66_msvc64_backward_refuted.

(** MSVC, 64 bits: pointers to members of classes with virtual bases have the size of those with
    multiple inheritance; they are not refused, and the wrong object is hooked *)
Theorem C66_msvc64_virtual_refuted :
  ~ (forall mem code a n delta ix vbptr obj this own st r,
       in_mem 8 mem a (thunk64 n) -> code = a -> ms_this 8 mem vbptr [delta; ix] obj = Some this ->
       msvc_info 8 mem (Mmfp code [delta; ix]) mfi_init = Some own -> msvc_info 8 mem (Mmfp code [delta; ix]) mfi_static = Some st ->
       add_hook_slot 8 mem own st obj = Some r -> fst r = this).
Proof.
  intros K. set (mem := mem_of [(4096, thunk64 2); (8192, bytes_le 8 12288); (12292, bytes_le 4 16)]).
  specialize (K mem 4096 4096 2 0 4 0 8192).
  assert (T : in_mem 8 mem 4096 (thunk64 2)).
  { intros i x Hi. do 6 (destruct i as [|i]; [inversion Hi; subst; reflexivity|]). destruct i; discriminate Hi. }
  specialize (K _ _ _ _ T eq_refl eq_refl eq_refl eq_refl eq_refl). vm_compute in K. discriminate K.
Qed.
Print Assumptions C66_msvc64_virtual_refuted.

(** MSVC, 32 bits, classes of unknown inheritance without virtual bases: delta is applied twice to
    find the vtable, so that another slot is hooked than the one calls use *)
Theorem C66_msvc32_unknown_refuted : forall mem code delta vp n obj own st,
  vtbl_offset 4 mem code = n -> 0 <= n -> 0 <= delta < 2 ^ 31 ->
  msvc_info 4 mem (Mmfp code [delta; vp; 0]) mfi_init = Some own -> msvc_info 4 mem (Mmfp code [delta; vp; 0]) mfi_static = Some st ->
  add_hook_slot 4 mem own st obj
    = Some (wp 4 (obj + delta), wp 4 (ldp 4 mem (wp 4 (obj + 2 * delta)) + n * 4)).
Proof.
  intros mem code delta vp n obj own st Ix Hn Hd H1 H2. unfold msvc_info in H1, H2. cbn [m_code m_ints nth] in H1, H2.
  change (m_words 4 (Mmfp code [delta; vp; 0])) with 4 in H1, H2. cbn [Z.eqb Pos.eqb negb] in H1, H2.
  rewrite Ix in H1, H2. rewrite (proj2 (Z.leb_le 0 n) Hn), (proj2 (Z.ltb_ge n 0) Hn) in H1, H2.
  inversion H1; inversion H2; subst own st. unfold add_hook_slot. cbn [thisptroffs isVirtual vtbloffs vtblindex negb].
  rewrite (proj2 (Z.ltb_ge delta 0)) by lia. cbn [orb]. rewrite wp_l. replace (obj + delta + delta) with (obj + 2 * delta) by ring. reflexivity.
Qed.
Print Assumptions C66_msvc32_unknown_refuted.

(** MSVC: a non-virtual function that ends in a call of a virtual one (mov eax,[ecx]; jmp [eax+8]) is
    taken for that one: whatever its address is otherwise used for *)
Example C66_msvc_tailcall : forall P, psize_ok P -> vtbl_offset P (mem_of [(4096, [139; 1; 255; 96; 8])]) 4096 = 8 / P.
Proof. intros P [->| ->]; reflexivity. Qed.

(** *** Manual hooks *)
(** Without reconfiguration, or with one that keeps the offset of this: the slot hooked and the slot
    whose hooks SH_MCALL ignores are the same, and without that offset the function is called with
    the this pointer the hook is filed under. *)
Theorem C66_manual : forall P mem cur ptr, psize_ok P -> 0 <= ptr < 2 ^ (8 * P) ->
  snd (manual_add_slot P mem (thisptroffs cur) cur ptr) = fst (fst (manual_call P mem cur ptr))
  /\ (thisptroffs cur = 0 ->
      fst (manual_add_slot P mem (thisptroffs cur) cur ptr) = snd (manual_call P mem cur ptr)
      /\ manual_recall P mem cur ptr = (ldp P mem (snd (manual_add_slot P mem (thisptroffs cur) cur ptr)), ptr)).
Proof.
  intros P mem cur ptr HP Hp. unfold manual_add_slot, manual_call, manual_recall. cbn [fst snd]. rewrite wp_l. split; [reflexivity|].
  intros ->. rewrite Z.add_0_r. split; [apply wp_small; exact Hp|reflexivity].
Qed.
Print Assumptions C66_manual.

(** SH_MCALL and RETURN_META_MNEWPARAMS forget thisptroffs; SH_ADD_MANUALHOOK uses the declared one *)
Definition wit : Z -> Z := mem_of [(4096, bytes_le 8 8192 ++ bytes_le 8 12288); (8192, bytes_le 8 77); (12288, bytes_le 8 99)].
Theorem C66_manual_this_refuted :
  let cur := Mfi true 8 0 0 in
  let '(this, slot) := manual_add_slot 8 wit 8 cur 4096 in
  let '(_, f, cthis) := manual_call 8 wit cur 4096 in
  this = 4104 /\ ldp 8 wit slot = 99 /\ f = 99 /\ cthis = 4096
  /\ manual_recall 8 wit cur (wp 8 (this - 8)) = (77, 4096).
Proof. vm_compute. repeat split; reflexivity. Qed.
Print Assumptions C66_manual_this_refuted.
Theorem C66_manual_reconfigure_refuted :
  let cur := Mfi true 8 0 0 in   (* SH_MANUALHOOK_RECONFIGURE(name, 0, 0, 8) of a hook declared with offset 0 *)
  ldp 8 wit (snd (manual_add_slot 8 wit 0 cur 4096)) = 77 /\ ldp 8 wit (fst (fst (manual_call 8 wit cur 4096))) = 99.
Proof. vm_compute. split; reflexivity. Qed.
Print Assumptions C66_manual_reconfigure_refuted.

Example C66_example :
  abi_call 8 wit (abi_virtual 8 3 8) 4096 = (Slot (12288 + 24), 4104)
  /\ add_hook_slot 8 wit (gcc_info 8 (abi_virtual 8 3 8) mfi_init) (gcc_info 8 (abi_virtual 8 3 8) mfi_static) 4096 = Some (4104, 12288 + 24).
Proof. vm_compute. split; reflexivity. Qed.
Example C66_msvc_example :
  let mem := mem_of [(4096, 233 :: bytes_le 4 (-1029)); (3072, thunk32 true 40)] in
  leads_to 4 mem 4096 3072 /\ in_mem 4 mem 3072 (thunk32 true 40) /\ vtbl_offset 4 mem 4096 = 40.
Proof.
  cbv zeta. split; [|split].
  - right. exists (-1029). split; [lia|]. split; [|reflexivity]. intros i x Hi.
    do 5 (destruct i as [|i]; [inversion Hi; subst; reflexivity|]). destruct i; discriminate Hi.
  - intros i x Hi. do 12 (destruct i as [|i]; [inversion Hi; subst; reflexivity|]). destruct i; discriminate Hi.
  - reflexivity.
Qed.
