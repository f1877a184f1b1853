(** C55: code buffers. *)
From Coq Require Import List ZArith Bool Permutation Lia.
From Verif Require Import Base ListModel PageModel PageSpec PageProofs PageProps TrampModel TrampProofs BufModel BufSpec BufProofs.
Import ListNotations.
Local Open Scope Z_scope.

(** Runs of several buffers with a common allocator; [s] is the specification's view.
    [ballowed]: when a push asks the system, the answer is an unused range (there is memory). *)
Inductive brun (page : Z) : mach -> palloc -> list gbuf -> sbuf -> list bop -> mach -> palloc -> list gbuf -> sbuf -> Prop :=
| br_nil (m : mach) (pa : palloc) (bs : list gbuf) (s : sbuf) : brun page m pa bs s [] m pa bs s
| br_cons (m m' m'' : mach) (pa pa' pa'' : palloc) (bs bs' bs'' : list gbuf) (s s' s'' : sbuf) (o : bop) (os : list bop) :
    bspec s o s' -> ballowed page m bs o -> bstep m pa bs o = Some (m', pa', bs') ->
    brun page m' pa' bs' s' os m'' pa'' bs'' s'' -> brun page m pa bs s (o :: os) m'' pa'' bs'' s''.
Definition breach (align page : Z) (foreign : list mapping) (k : nat) (ops : list bop) (m : mach) (pa : palloc) (bs : list gbuf) (s : sbuf) : Prop :=
  exists f, brun page (Mach foreign f) (PA align page []) (repeat gempty k) (SB (repeat [] k) None) ops m pa bs s.

Lemma breach_inv align page foreign k ops m pa bs s : sizes_ok align page -> foreign_ok foreign -> breach align page foreign k ops m pa bs s ->
  binv align page foreign m pa bs s.
Proof.
  intros (A & PG & DV) (F1 & F2) (f & R).
  assert (V0 : binv align page foreign (Mach foreign f) (PA align page []) (repeat gempty k) (SB (repeat [] k) None)).
  { constructor; cbn [s_cont s_open]; [|clear; induction k as [|k IH]; cbn [repeat]; [constructor|constructor; [left; auto|exact IH]]|discriminate].
    replace (flat_map bblock (repeat gempty k)) with (@nil block) by (clear; induction k; cbn; auto). constructor; cbn; auto. }
  revert V0 R. generalize (Mach foreign f) as m0, (PA align page []) as pa0, (repeat gempty k) as bs0, (SB (repeat [] k) None) as s0.
  intros m0 pa0 bs0 s0 V0 R. induction R as [m0 pa0 bs0 s0|m0 m1 m2 pa0 pa1 pa2 bs0 bs1 bs2 s0 s1 s2 o os SP AO E R IH]; [exact V0|].
  apply IH. destruct (bstep_ok align page foreign A PG DV _ _ _ _ _ _ V0 SP AO) as (m' & pa' & bs' & E' & V'). congruence.
Qed.

(** After every run: each buffer holds exactly the bytes written to it (with the
    rewrites applied), GetSize() is their number, the buffers do not overlap; and no
    call that the specification allows faults. *)
Theorem C55_buffers (align page : Z) (foreign : list mapping) (k : nat) (ops : list bop) (m : mach) (pa : palloc) (bs : list gbuf) (s : sbuf) :
  sizes_ok align page -> foreign_ok foreign -> breach align page foreign k ops m pa bs s ->
  length bs = length (s_cont s) /\
  (forall i b c, nth_error bs i = Some b -> nth_error (s_cont s) i = Some c ->
     g_size b = Z.of_nat (length c) /\ forall j, (j < length c)%nat -> bytes m (g_data b + Z.of_nat j) = nth j c 0) /\
  (forall i j b b', i <> j -> nth_error bs i = Some b -> nth_error bs j = Some b' -> g_data b <> 0 -> g_data b' <> 0 ->
     apart (g_data b) (g_size b) (g_data b') (g_size b')) /\
  (forall o s', bspec s o s' -> ballowed page m bs o -> exists r, bstep m pa bs o = Some r).
Proof.
  intros S F R. pose proof (breach_inv _ _ _ _ _ _ _ _ _ S F R) as V. destruct S as (A & PG & DV).
  assert (OK := bi_ok _ _ _ _ _ _ _ V). split; [|split; [|split]].
  - clear - OK. induction OK; cbn [length]; congruence.
  - intros i b c NB NC. destruct (focus _ _ _ _ _ OK NC) as (b1 & b0 & b2 & c1 & c2 & EB & EC & L1 & L2 & _ & FB & _).
    rewrite EB, <- L1, nth_mid in NB. injection NB as <-. destruct FB as [(-> & ->)|(_ & SZ & _ & _ & H)].
    + split; [reflexivity|]. intros j J; cbn [length] in J; lia.
    + split; [exact SZ|exact H].
  - intros i j b b' NE NB NB' D D'.
    assert (P := inv_fop align page foreign A _ _ _ (bi_inv _ _ _ _ _ _ _ V)).
    assert (SZ : forall i b, nth_error bs i = Some b -> g_size b <= g_alloc b).
    { clear - OK. intros i b NB. revert i NB. induction OK as [|b0 c0 bs cs O OK IH]; intros [|i] NB; try discriminate NB; [|exact (IH i NB)].
      injection NB as <-. destruct O as [(-> & _)|(_ & _ & _ & X & _)]; [cbn; lia|lia]. }
    assert (K : apart (g_data b) (g_alloc b) (g_data b') (g_alloc b')).
    { clear - P NE NB NB' D D'. revert i j NE NB NB'. induction bs as [|x bs IH]; intros i j NE NB NB'; [destruct i; discriminate NB|].
      cbn [flat_map] in P. apply fop_app in P; destruct P as (_ & P2 & P3).
      assert (BL : forall y, g_data y <> 0 -> In (Block (g_data y) (g_alloc y) false) (bblock y))
        by (intros y Y; unfold bblock; destruct (Z.eqb_spec (g_data y) 0); [contradiction|left; reflexivity]).
      destruct i as [|i], j as [|j]; [lia| | |apply (IH P2 i j); [lia|exact NB|exact NB']]; cbn [nth_error] in NB, NB'.
      - injection NB as ->. apply (P3 (Block (g_data b) (g_alloc b) false) (Block (g_data b') (g_alloc b') false)); [apply BL; exact D|].
        apply in_flat_map; exists b'; split; [exact (nth_error_In _ _ NB')|apply BL; exact D'].
      - injection NB' as ->. apply apart_sym. apply (P3 (Block (g_data b') (g_alloc b') false) (Block (g_data b) (g_alloc b) false)); [apply BL; exact D'|].
        apply in_flat_map; exists b; split; [exact (nth_error_In _ _ NB)|apply BL; exact D]. }
    pose proof (SZ i b NB). pose proof (SZ j b' NB'). unfold apart in *. lia.
  - intros o s' SP AO. destruct (bstep_ok align page foreign A PG DV _ _ _ _ _ _ V SP AO) as (m' & pa' & bs' & E & _). eauto.
Qed.
Print Assumptions C55_buffers.

(** SetRE makes the code of the buffer read-only (and executable) and changes no byte. *)
Theorem C55_set_re (align page : Z) (foreign : list mapping) (k : nat) (ops : list bop) (m : mach) (pa : palloc) (bs : list gbuf) (s : sbuf) (i : nat) (b : gbuf) :
  sizes_ok align page -> foreign_ok foreign -> breach align page foreign k ops m pa bs s -> nth_error bs i = Some b ->
  exists m' pa', bstep m pa bs (BSetRE i) = Some (m', pa', bs) /\ bytes m' = bytes m /\
    forall x, g_data b <= x < g_data b + g_size b -> writable m' x = false.
Proof.
  intros S F R NB. pose proof (breach_inv _ _ _ _ _ _ _ _ _ S F R) as V. destruct S as (A & PG & DV). cbn [bstep]. rewrite NB. unfold set_re.
  destruct (set_pa_ok align page foreign A m pa _ (g_data b) true (bi_inv _ _ _ _ _ _ _ V)) as (m' & pa' & -> & V' & B' & W).
  exists m', pa'. split; [reflexivity|split; [exact B'|]]. intros x X.
  assert (OK := bi_ok _ _ _ _ _ _ _ V).
  assert (O : exists c, okbuf m b c).
  { clear - OK NB. revert i NB. induction OK as [|b0 c0 bs cs O OK IH]; intros [|i] NB; try discriminate NB; [injection NB as <-; eauto|exact (IH i NB)]. }
  destruct O as (c & [(-> & _)|(D & _ & _ & SZ & _)]); [cbn in X; lia|].
  apply (W (Block (g_data b) (g_alloc b) false)); [|reflexivity|cbn; lia].
  apply in_flat_map; exists b; split; [exact (nth_error_In _ _ NB)|]. unfold bblock. destruct (Z.eqb_spec (g_data b) 0); [contradiction|left; reflexivity].
Qed.
Print Assumptions C55_set_re.

(** A run with two buffers: growth from 64 to 128 bytes, a rewrite, closing. *)
Lemma ex_os m ans n : 0 < ans <= 8192 -> (4096 | ans) -> 0 < n <= 4096 -> (forall mp, In mp (maps m) -> m_start mp + m_len mp <= ans) -> os_answer 4096 m n ans.
Proof.
  intros H1 H2 H3 H4. right. split; [lia|split; [exact H2|]]. intros s (S1 & S2). split; [lia|]. intros mp I. right. exact (H4 mp I).
Qed.
Example ex_breach : exists m pa bs s, breach 16 4096 [] 2 [BPush 0 (Num 4 (-2)) 4096; BPush 0 (Raw (repeat 144 62)) 8192; BRewrite 0 1 (Num 2 513); BSetRE 0; BPush 1 (Num 8 1) 8192] m pa bs s /\
  s_cont s = [[254; 1; 2; 255] ++ repeat 144 62; [1; 0; 0; 0; 0; 0; 0; 0]].
Proof.
  do 4 eexists. split.
  - exists (fun _ => 0).
    eapply br_cons; [apply s_push with (c := []); [reflexivity|right; reflexivity|discriminate|cbn; lia]| |vm_compute; reflexivity|].
    { intros b E; injection E as <-. split; [|lia]. apply ex_os; [lia|exists 1; lia|vm_compute; split; [reflexivity|discriminate]|intros mp []]. }
    eapply br_cons; [eapply s_push; [reflexivity|left; reflexivity|discriminate|cbn; lia]| |vm_compute; reflexivity|].
    { intros b E; injection E as <-. split; [|lia]. apply ex_os; [lia|exists 2; lia|vm_compute; split; [reflexivity|discriminate]|intros mp [<-|[]]; cbn; lia]. }
    eapply br_cons; [eapply (s_rewrite _ 0 1); [reflexivity|reflexivity|cbn; lia]|exact I|vm_compute; reflexivity|].
    eapply br_cons; [eapply s_setre; reflexivity|exact I|vm_compute; reflexivity|].
    eapply br_cons; [eapply s_push; [reflexivity|right; reflexivity|discriminate|cbn; lia]| |vm_compute; reflexivity|].
    { intros b E; injection E as <-. split; [|lia]. apply ex_os; [lia|exists 2; lia|vm_compute; split; [reflexivity|discriminate]|intros mp [<-|[]]; cbn; lia]. }
    apply br_nil.
  - reflexivity.
Qed.

Fixpoint bsteps (m : mach) (pa : palloc) (bs : list gbuf) (os : list bop) : option (mach * palloc * list gbuf) :=
  match os with [] => Some (m, pa, bs) | o :: os => do (m, pa, bs) <- bstep m pa bs o; bsteps m pa bs os end.

(** Finding: "any sequence of writes" is not enough.  Closing one buffer makes its page
    read-only; another buffer in the same page which was not closed then faults. *)
Theorem C55_shared_region_refuted :
  let run := bsteps (Mach [] (fun _ => 0)) (PA 16 4096 []) [gempty; gempty] in
  run [BPush 0 (Num 1 7) 4096; BPush 1 (Num 1 8) 0] <> None /\
  run [BPush 0 (Num 1 7) 4096; BPush 1 (Num 1 8) 0; BSetRE 1; BPush 0 (Num 1 7) 0] = None.
Proof. split; vm_compute; [discriminate|reflexivity]. Qed.
Print Assumptions C55_shared_region_refuted.

(** Finding: when no memory can be had, push gives up but has already doubled
    m_AllocatedSize; the next push writes over the end of the block, into another buffer. *)
Theorem C55_no_memory_refuted :
  exists m pa b0 b1, bsteps (Mach [] (fun _ => 0)) (PA 16 128 []) [gempty; gempty]
    [BPush 1 (Num 1 7) 128; BPush 0 (Raw (repeat 1 64)) 0; BPush 1 (Raw (repeat 2 63)) 0; BPush 1 (Num 1 9) 0; BPush 1 (Num 1 9) 0] = Some (m, pa, [b0; b1]) /\
    g_size b0 = 64 /\ bytes m (g_data b0) = 9.
Proof. do 4 eexists. split; [vm_compute; reflexivity|split; reflexivity]. Qed.
Print Assumptions C55_no_memory_refuted.
