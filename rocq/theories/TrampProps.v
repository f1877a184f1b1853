(** C32: trampolines to original functions with an odd address. *)
From Coq Require Import List ZArith Bool Lia.
From Verif Require Import Base ListModel PageModel PageSpec PageProofs PageProps TrampModel TrampSpec TrampProofs.
Import ListNotations.
Local Open Scope Z_scope.

(** The conditions on a step: addresses have 64 bits, the system has memory, others do not write to read-only pages. *)
Definition tallowed (page : Z) (m : mach) (o : top) : Prop :=
  match o with
  | TInit orig ans => 0 <= orig < 2 ^ 64 /\ os_answer page m 12 ans /\ ans <> 0
  | TCleanup _ => True
  | TWrite f => forall x, writable m x = false -> f x = bytes m x
  end.
(** [ts]: the live trampolines, each with its original entry *)
Definition tstep (m : mach) (pa : palloc) (ts : list (Z * Z)) (o : top) : option (mach * palloc * list (Z * Z)) :=
  match o with
  | TInit orig ans => do (m, pa, t) <- init m pa orig ans; Some (m, pa, if t =? 0 then ts else (t, orig) :: ts)
  | TCleanup t => do (m, pa) <- cleanup m pa t; Some (m, pa, filter (fun x => negb (fst x =? t)) ts)
  | TWrite f => Some (Mach (maps m) f, pa, ts)
  end.
Inductive trun (page : Z) : mach -> palloc -> list (Z * Z) -> list top -> mach -> palloc -> list (Z * Z) -> Prop :=
| tr_nil (m : mach) (pa : palloc) (ts : list (Z * Z)) : trun page m pa ts [] m pa ts
| tr_cons (m m' m'' : mach) (pa pa' pa'' : palloc) (ts ts' ts'' : list (Z * Z)) (o : top) (os : list top) :
    tallowed page m o -> tstep m pa ts o = Some (m', pa', ts') -> trun page m' pa' ts' os m'' pa'' ts'' ->
    trun page m pa ts (o :: os) m'' pa'' ts''.

(** a state which can be reached; the allocator of CVfnPtr has alignment 8 (sourcehook_impl_cvfnptr.cpp:17) *)
Definition treach (page : Z) (foreign : list mapping) (ops : list top) (m : mach) (pa : palloc) (ts : list (Z * Z)) : Prop :=
  exists f, trun page (Mach foreign f) (PA 8 page []) [] ops m pa ts.

Lemma tstep_ok page foreign m pa ts o : 0 < page <= 2 ^ 62 -> (8 | page) -> tinv page foreign m pa ts -> tallowed page m o ->
  exists m' pa' ts', tstep m pa ts o = Some (m', pa', ts') /\ tinv page foreign m' pa' ts'.
Proof.
  intros PG DV V A. destruct o as [orig ans|t|f]; cbn [tstep tallowed] in *.
  - destruct A as (A1 & A2 & A3). destruct (Z.odd orig) eqn:OD.
    + destruct (init_ok page foreign PG DV m pa ts orig ans V OD A1 A2 A3) as (m' & pa' & t & E & NZ & V' & _).
      rewrite E. destruct (Z.eqb_spec t 0); [contradiction|]. eauto.
    + unfold init; rewrite OD. cbn [Z.eqb]. eauto.
  - destruct (cleanup_ok page foreign m pa ts t V) as (m' & pa' & E & V'). rewrite E. eauto.
  - do 3 eexists; split; [reflexivity|]. exact (write_ok page foreign m pa ts f V A).
Qed.
Lemma treach_inv page foreign ops m pa ts : sizes_ok 8 page -> foreign_ok foreign -> treach page foreign ops m pa ts -> tinv page foreign m pa ts.
Proof.
  intros (_ & PG & DV) (F1 & F2) (f & R).
  assert (V0 : tinv page foreign (Mach foreign f) (PA 8 page []) []) by (constructor; [constructor; cbn; auto|constructor|constructor]).
  revert V0 R. generalize (Mach foreign f) as m0, (PA 8 page []) as pa0, (@nil (Z * Z)) as ts0. intros m0 pa0 ts0 V0 R.
  induction R as [m0 pa0 ts0|m0 m1 m2 pa0 pa1 pa2 ts0 ts1 ts2 o os AO E R IH]; [exact V0|].
  apply IH. destruct (tstep_ok page foreign m0 pa0 ts0 o PG DV V0 AO) as (m' & pa' & ts' & E' & V'). congruence.
Qed.

(** At any time, executing any live trampoline leads to its original entry, through
    instructions inside its 12 bytes; its address is even; and no step ever faults. *)
Theorem C32_trampolines (page : Z) (foreign : list mapping) (ops : list top) (m : mach) (pa : palloc) (ts : list (Z * Z)) :
  sizes_ok 8 page -> foreign_ok foreign -> treach page foreign ops m pa ts ->
  (forall t orig, In (t, orig) ts -> jumps_to m t orig /\ Z.even t = true /\ t <> 0) /\
  (forall o, tallowed page m o -> exists s, tstep m pa ts o = Some s).
Proof.
  intros S F R. pose proof (treach_inv _ _ _ _ _ _ S F R) as V. destruct S as (_ & PG & DV). split.
  - intros t orig I. destruct (tinv_jumps page foreign m pa ts (t, orig) V I) as (J & (k & D) & N). cbn [fst snd] in *.
    split; [exact J|split; [|exact N]]. rewrite D. replace (k * 8) with (2 * (4 * k)) by lia. rewrite Z.even_mul. reflexivity.
  - intros o A. destruct (tstep_ok page foreign m pa ts o PG DV V A) as (m' & pa' & ts' & E & _). eauto.
Qed.
Print Assumptions C32_trampolines.

(** Init: after it, calling GetOrigCallAddr() is calling the original entry, and the
    address is even as GCC needs it.  Of the memory mapped before only the 12 bytes of
    the trampoline change. *)
Theorem C32_init (page : Z) (foreign : list mapping) (ops : list top) (m : mach) (pa : palloc) (ts : list (Z * Z)) (orig ans : Z) :
  sizes_ok 8 page -> foreign_ok foreign -> treach page foreign ops m pa ts -> tallowed page m (TInit orig ans) ->
  exists m' pa' t, init m pa orig ans = Some (m', pa', t) /\
    Z.even (orig_call_addr t orig) = true /\
    (orig_call_addr t orig = orig \/ jumps_to m' (orig_call_addr t orig) orig) /\
    (forall x mp, In mp (maps m) -> inside x mp = true -> ~ (t <= x < t + 12) -> bytes m' x = bytes m x) /\
    (forall t' orig', In (t', orig') ts -> apart t 12 t' 12 \/ t = 0).
Proof.
  intros S F R (A1 & A2 & A3). pose proof (treach_inv _ _ _ _ _ _ S F R) as V. destruct S as (_ & PG & DV).
  destruct (Z.odd orig) eqn:OD.
  - destruct (init_ok page foreign PG DV m pa ts orig ans V OD A1 A2 A3) as (m' & pa' & t & E & NZ & V' & K).
    exists m', pa', t. unfold orig_call_addr. destruct (Z.eqb_spec t 0); [contradiction|].
    destruct (tinv_jumps page foreign m' pa' _ (t, orig) V' (or_introl eq_refl)) as (J & (k & D) & _). cbn [fst snd] in *.
    split; [exact E|split; [|split; [right; exact J|split]]].
    + rewrite D. replace (k * 8) with (2 * (4 * k)) by lia. rewrite Z.even_mul. reflexivity.
    + intros x mp I IN N. apply K; [exists mp; auto|exact N].
    + intros t' orig' I. left. assert (V1 := t_inv _ _ _ _ _ V').
      assert (P := inv_flat 8 page foreign ltac:(lia) _ _ _ V1).
      pose proof (fop_perm bapart _ _ bapart_sym (Permutation.Permutation_sym (i_blocks _ _ _ _ _ _ V1)) P) as Q. cbn [map] in Q.
      inversion Q as [|? ? Q1 Q2]; subst. exact (proj1 (Forall_forall _ _) Q1 _ (in_map tblock _ _ I)).
  - exists m, pa, 0. unfold init, orig_call_addr; rewrite OD. cbn [Z.eqb]. split; [reflexivity|split; [|split; [left; reflexivity|split; auto]]].
    rewrite <- Z.negb_odd, OD. reflexivity.
Qed.
Print Assumptions C32_init.

(** A near and a far target; the first trampoline goes, a third takes its place. *)
Definition ex_near : Z := 4096 * 5 + 1.
Definition ex_far : Z := 2 ^ 46 + 3.
Example ex_treach : exists m pa, treach 4096 [] [TInit ex_near 4096; TInit ex_far 40960; TCleanup 4096; TInit 7 40960] m pa [(4096, 7); (4112, ex_far)].
Proof.
  assert (OS : forall m, (forall mp, In mp (maps m) -> m_start mp + m_len mp <= 40960) -> os_answer 4096 m 12 40960).
  { intros m H. right; split; [lia|split; [exists 10; lia|]]. intros s (S1 & S2). split; [lia|]. intros mp I; right; exact (H mp I). }
  do 2 eexists. exists (fun _ => 0).
  eapply tr_cons; [split; [unfold ex_near; lia|split; [|lia]]| |].
  { right; split; [lia|split; [exists 1; lia|]]. intros s (S1 & S2). split; [lia|]. intros mp []. }
  { vm_compute; reflexivity. }
  eapply tr_cons; [split; [unfold ex_far; lia|split; [apply OS; intros mp [<-|[]]; cbn; lia|lia]]|vm_compute; reflexivity|].
  eapply tr_cons; [exact I|vm_compute; reflexivity|].
  eapply tr_cons; [split; [lia|split; [apply OS; intros mp [<-|[]]; cbn; lia|lia]]|vm_compute; reflexivity|].
  apply tr_nil.
Qed.
Example ex_bytes : thunk_bytes 4096 ex_near = [233; 252; 63; 0; 0; 0; 0; 0; 0] /\ thunk_bytes 4096 ex_far = [72; 184; 3; 0; 0; 0; 0; 64; 0; 0; 255; 224].
Proof. split; reflexivity. Qed.

(** Finding: NULL from the allocator is not checked; without memory Init writes to address 0. *)
Theorem C32_out_of_memory_refuted (m : mach) (pa : palloc) (orig : Z) : Z.odd orig = true -> p_regs pa = [] -> writable m 0 = false ->
  init m pa orig 0 = None.
Proof.
  intros OD RS W. unfold init. rewrite OD. unfold alloc_priv. rewrite RS. cbn [alloc_in].
  unfold add_region; cbn [Z.eqb negb]. unfold os_map; cbn [Z.eqb orb]. rewrite RS. cbn [set_in].
  assert (X : exists v l, thunk_bytes 0 orig = v :: l) by (unfold thunk_bytes; cbv zeta; destruct (_ && _); cbn [app]; eauto).
  destruct X as (v & l & ->). cbn [store_list]. unfold store. rewrite W. reflexivity.
Qed.
Print Assumptions C32_out_of_memory_refuted.
