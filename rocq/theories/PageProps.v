(** C31: the page allocator for generated code. *)
From Coq Require Import List ZArith Bool Permutation Lia.
From Verif Require Import Base ListModel PageModel PageSpec PageProofs.
Import ListNotations.
Local Open Scope Z_scope.

(** the mappings which exist before the allocator is used *)
Definition foreign_ok (foreign : list mapping) : Prop :=
  Forall (fun mp => 0 < m_len mp) foreign /\
  ForallOrdPairs (fun a b => apart (m_start a) (m_len a) (m_start b) (m_len b)) foreign.

(** page size and alignment; CPageAlloc(minAlignment) wants a power of 2, the page size is one *)
Definition sizes_ok (align page : Z) : Prop := 0 < align /\ 0 < page <= 2 ^ 62 /\ (align | page).

(** a state which can be reached by a client *)
Definition reachable (align page : Z) (foreign : list mapping) (ops : list pop) (m : mach) (pa : palloc) (l : list block) : Prop :=
  exists f, prun page (Mach foreign f) (PA align page []) [] ops m pa l.

Lemma reach_inv align page foreign ops m pa l : sizes_ok align page -> foreign_ok foreign ->
  reachable align page foreign ops m pa l -> inv align page foreign m pa l.
Proof.
  intros (A & P & D) (F1 & F2) (f & R).
  assert (V0 : inv align page foreign (Mach foreign f) (PA align page []) []).
  { constructor; cbn; auto. }
  revert V0 R. generalize (Mach foreign f) as m0, (PA align page []) as pa0, (@nil block) as l0.
  intros m0 pa0 l0 V0 R. induction R as [m0 pa0 l0|m0 m1 m2 pa0 pa1 pa2 l0 l2 o os r AO E R IH]; [exact V0|].
  apply IH. destruct (pstep_ok align page foreign A P D m0 pa0 l0 o V0 AO) as (m' & pa' & r' & E' & V'). congruence.
Qed.

(** Every run: the blocks lie in mappings obtained from the system, are aligned and
    pairwise disjoint; every mapping of the allocator holds a live block (so it is given
    back when the last block is freed); isolated blocks are alone; other mappings are
    not touched.  And no call ever faults. *)
Theorem C31_blocks (align page : Z) (foreign : list mapping) (ops : list pop) (m : mach) (pa : palloc) (l : list block) :
  sizes_ok align page -> foreign_ok foreign -> reachable align page foreign ops m pa l ->
  good align foreign m l /\ forall o, allowed page m o -> exists m' pa' r, pstep m pa o = Some (m', pa', r).
Proof.
  intros S F R. assert (V := reach_inv _ _ _ _ _ _ _ S F R). destruct S as (A & P & D). split.
  - exact (inv_good align page foreign A m pa l V).
  - intros o AO. destruct (pstep_ok align page foreign A P D m pa l o V AO) as (m' & pa' & r & E & _). eauto.
Qed.
Print Assumptions C31_blocks.

(** Alloc fails only if the system has no memory; it does not touch the blocks of others. *)
Theorem C31_alloc (align page : Z) (foreign : list mapping) (ops : list pop) (m : mach) (pa : palloc) (l : list block) (n : Z) (iso : bool) (ans : Z) :
  sizes_ok align page -> foreign_ok foreign -> reachable align page foreign ops m pa l -> allowed page m (PAlloc n iso ans) ->
  exists m' pa' a, pstep m pa (PAlloc n iso ans) = Some (m', pa', a) /\ (a = 0 -> ans = 0 /\ maps m' = maps m) /\
    forall b x, In b l -> b_addr b <= x < b_addr b + b_size b -> bytes m' x = bytes m x.
Proof.
  intros S F R (H1 & H2). assert (V := reach_inv _ _ _ _ _ _ _ S F R). destruct S as (A & P & D).
  destruct (alloc_ok align page foreign A P D m pa l n iso ans V H1 H2) as (m' & pa' & a & E & _ & K & Z0).
  exists m', pa', a. cbn [pstep]; rewrite E. split; [reflexivity|split; [|exact K]]. intro X; destruct (Z0 X) as (Y1 & -> & _); auto.
Qed.
Print Assumptions C31_alloc.

Lemma fop_same ms a b : ForallOrdPairs mapart ms -> In a ms -> In b ms -> 
  forall p n, 0 < n -> within p n (m_start a) (m_len a) -> within p n (m_start b) (m_len b) -> a = b.
Proof.
  intros P I J p n N W1 W2. apply in_split in I; destruct I as (x & y & E). rewrite E in P, J. apply in_app_or in J. destruct J as [J|[J|J]]; [|exact J|];
    exfalso; (assert (Q : mapart a b) by (apply (fop_mid mapart b x a y P mapart_sym); apply in_or_app; auto);
    unfold mapart, apart, within in *; lia).
Qed.

(** Free(p) does not change a byte of any other block; a mapping stays if and only if a live block remains in it. *)
Theorem C31_free (align page : Z) (foreign : list mapping) (ops : list pop) (m : mach) (pa : palloc) (l : list block) (p : Z) :
  sizes_ok align page -> foreign_ok foreign -> reachable align page foreign ops m pa l ->
  exists m' pa', pstep m pa (PFree p) = Some (m', pa', 0) /\
    (forall b x, In b l -> b_addr b <> p -> b_addr b <= x < b_addr b + b_size b -> bytes m' x = bytes m x) /\
    (forall mp, In mp (maps m) -> ~ In mp foreign ->
       (In mp (maps m') <-> exists b, In b l /\ b_addr b <> p /\ within (b_addr b) (b_size b) (m_start mp) (m_len mp))) /\
    (forall mp, In mp (maps m') -> In mp (maps m)).
Proof.
  intros S F R. assert (V := reach_inv _ _ _ _ _ _ _ S F R). destruct S as (A & P & D).
  destruct (free_ok align page foreign A m pa l p V) as (m' & rs & E & V' & K & _ & SUB).
  exists m', (PA (p_align pa) (p_page pa) rs). cbn [pstep]; rewrite E. split; [reflexivity|]. split; [|split; [|exact SUB]].
  - intros b x I N X. apply (K b x); [|exact X]. apply filter_In; split; [exact I|]. destruct (Z.eqb_spec (b_addr b) p); [contradiction|reflexivity].
  - intros mp I N. assert (G' := inv_good align page foreign A _ _ _ V'). assert (G := inv_good align page foreign A _ _ _ V). split.
    + intro I'. destruct (g_used _ _ _ _ G' mp I') as [X|(b & IB & W)]; [contradiction|].
      apply filter_In in IB; destruct IB as (IB & NB). exists b; split; [exact IB|split; [|exact W]].
      destruct (Z.eqb_spec (b_addr b) p); [discriminate NB|assumption].
    + intros (b & IB & NB & W). assert (IB' : In b (filter (fun b => negb (b_addr b =? p)) l)).
      { apply filter_In; split; [exact IB|]. destruct (Z.eqb_spec (b_addr b) p); [contradiction|reflexivity]. }
      destruct (g_in _ _ _ _ G' b IB') as (mp' & I' & _ & W'). assert (mp = mp'); [|subst; exact I'].
      apply (fop_same (maps m) mp mp' (i_apart _ _ _ _ _ _ V) I (SUB mp' I') (b_addr b) (b_size b)); [|exact W|exact W'].
      apply (flat_size align page A (p_regs pa)); [exact (inv_regok _ _ _ _ _ _ V)|].
      apply (Permutation_in _ (i_blocks _ _ _ _ _ _ V)); exact IB.
Qed.
Print Assumptions C31_free.

(** Free of a pointer which is not the address of a live block does nothing. *)
Theorem C31_free_unknown (align page : Z) (foreign : list mapping) (ops : list pop) (m : mach) (pa : palloc) (l : list block) (p : Z) :
  sizes_ok align page -> foreign_ok foreign -> reachable align page foreign ops m pa l -> (forall b, In b l -> b_addr b <> p) ->
  pstep m pa (PFree p) = Some (m, pa, 0).
Proof.
  intros S F R N. assert (V := reach_inv _ _ _ _ _ _ _ S F R). destruct S as (A & P & D).
  destruct (free_ok align page foreign A m pa l p V) as (m' & rs & E & _ & _ & U & _). cbn [pstep]; rewrite E.
  destruct U as (-> & ->).
  - intro I; apply in_map_iff in I; destruct I as (b & X & I). exact (N b I X).
  - destruct pa; reflexivity.
Qed.
Print Assumptions C31_free_unknown.

(** SetRW(p), SetRE(p) make the block at p writable or not, and change no byte. *)
Theorem C31_set (align page : Z) (foreign : list mapping) (ops : list pop) (m : mach) (pa : palloc) (l : list block) (b : block) (re : bool) :
  sizes_ok align page -> foreign_ok foreign -> reachable align page foreign ops m pa l -> In b l ->
  exists m' pa', pstep m pa (PSet (b_addr b) re) = Some (m', pa', 0) /\ bytes m' = bytes m /\
    forall x, b_addr b <= x < b_addr b + b_size b -> writable m' x = negb re.
Proof.
  intros S F R I. assert (V := reach_inv _ _ _ _ _ _ _ S F R). destruct S as (A & P & D).
  destruct (set_ok align page foreign m pa l (b_addr b) re V) as (_ & B).
  pose proof (set_writable align page foreign A m pa l b re V I) as W. cbn [pstep].
  destruct (set_in m (p_regs pa) (b_addr b) re) as [m' rs]. cbn [fst snd] in *. exists m', (PA (p_align pa) (p_page pa) rs); auto.
Qed.
Print Assumptions C31_set.

(** The destructor gives everything back. *)
Theorem C31_destroy (align page : Z) (foreign : list mapping) (ops : list pop) (m : mach) (pa : palloc) (l : list block) :
  sizes_ok align page -> foreign_ok foreign -> reachable align page foreign ops m pa l -> Permutation (maps (destroy m pa)) foreign.
Proof.
  intros S F R. assert (V := reach_inv _ _ _ _ _ _ _ S F R). assert (N := inv_starts _ _ _ _ _ _ V). assert (P := i_maps _ _ _ _ _ _ V).
  unfold destroy. clear - N P. revert m N P. generalize (p_regs pa) as rs. induction rs as [|r rs IH]; intros m N P; cbn [fold_left]; [exact P|].
  apply IH.
  - cbn [map app] in N. inversion N; assumption.
  - exact (unmap_maps foreign m [] r rs P N).
Qed.
Print Assumptions C31_destroy.

(** A run: three blocks, one of them isolated; the middle one is freed. *)
Definition ex_ops : list pop := [PAlloc 5 false 64; PAlloc 3 false 0; PAlloc 2 true 128; PFree 64].
Definition ex_foreign : list mapping := [Map 16 32 true].
Example ex_reach : exists m pa l, reachable 4 16 ex_foreign ex_ops m pa l /\ map b_addr l = [128; 72].
Proof.
  assert (D16 : forall k, (16 | 16 * k)) by (intro k; exists k; lia).
  assert (OS : forall m ans n, 0 < ans < 1000 -> (16 | ans) -> 0 < n < 16 -> (forall mp, In mp (maps m) -> m_start mp + m_len mp <= ans) -> os_answer 16 m n ans).
  { intros m ans n H1 H2 H3 H4. right. split; [lia|split; [exact H2|]]. intros s (S1 & S2). split; [lia|].
    intros mp I. right. exact (H4 mp I). }
  do 3 eexists. split.
  - exists (fun _ => 0). unfold ex_ops.
    eapply pr_cons; [split; [lia|apply OS; [lia|exact (D16 4)|lia|intros mp [<-|[]]; cbn; lia]]|vm_compute; reflexivity|].
    eapply pr_cons; [split; [lia|left; reflexivity]|vm_compute; reflexivity|].
    eapply pr_cons; [split; [lia|apply OS; [lia|exact (D16 8)|lia|intros mp [<-|[<-|[]]]; cbn; lia]]|vm_compute; reflexivity|].
    eapply pr_cons; [exact I|vm_compute; reflexivity|]. apply pr_nil.
  - reflexivity.
Qed.
Example ex_sizes : sizes_ok 4 16 /\ foreign_ok ex_foreign.
Proof. split; [split; [lia|split; [lia|exists 4; lia]]|split; repeat constructor]. Qed.

(** Finding: mmap reports failure by MAP_FAILED, not NULL.  The region at MAP_FAILED is
    entered; this Alloc returns NULL, but a later one returns an address in no mapping. *)
Theorem C31_map_failed_refuted :
  exists m1 pa1 m2 pa2 a, let m0 := Mach ex_foreign (fun _ => 0) in
    pstep m0 (PA 4 4096 []) (PAlloc 4 false map_failed) = Some (m1, pa1, 0) /\
    pstep m1 pa1 (PAlloc 4 false 0) = Some (m2, pa2, a) /\ a <> 0 /\ forall mp, In mp (maps m2) -> inside a mp = false.
Proof.
  do 5 eexists. cbv zeta. split; [vm_compute; reflexivity|split; [vm_compute; reflexivity|split; [discriminate|]]].
  intros mp [<-|[]]; reflexivity.
Qed.
Print Assumptions C31_map_failed_refuted.

(** Finding: an absurdly large request wraps around when the alignment is added and "succeeds". *)
Theorem C31_huge_refuted :
  exists m1 pa1 m2 pa2 a, let m0 := Mach [] (fun _ => 0) in
    pstep m0 (PA 4 4096 []) (PAlloc 1 false 4096) = Some (m1, pa1, 4096) /\
    pstep m1 pa1 (PAlloc (2 ^ 64 - 1) false 0) = Some (m2, pa2, a) /\ a <> 0.
Proof. do 5 eexists. cbv zeta. split; [vm_compute; reflexivity|split; [vm_compute; reflexivity|discriminate]]. Qed.
Print Assumptions C31_huge_refuted.

(** Finding: with an alignment above the page size a request can fail although the system
    gave memory, and the empty region is kept. *)
Theorem C31_big_alignment_refuted :
  exists m pa, pstep (Mach [] (fun _ => 0)) (PA 32 16 []) (PAlloc 16 false 16) = Some (m, pa, 0) /\ maps m <> [].
Proof. do 2 eexists. split; [vm_compute; reflexivity|discriminate]. Qed.
Print Assumptions C31_big_alignment_refuted.
