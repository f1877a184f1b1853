(** Proofs for the page allocator. *)
From Coq Require Import List ZArith Bool Permutation Lia Arith.
From Verif Require Import Base ListModel PageModel PageSpec.
Import ListNotations.
Local Open Scope Z_scope.

Lemma wsm x : 0 <= x < 2 ^ 64 -> w x = x.
Proof. intro H; apply Z.mod_small; exact H. Qed.

(** Lists *)
Section Fop.
  Context {A : Type} (R : A -> A -> Prop).
  Lemma fop_app l l' : ForallOrdPairs R (l ++ l') <->
    ForallOrdPairs R l /\ ForallOrdPairs R l' /\ forall x y, In x l -> In y l' -> R x y.
  Proof.
    induction l as [|a l IH]; cbn [app].
    - split; [intro H; split; [constructor|split; [exact H|intros x y []]]|tauto].
    - split.
      + intro H; inversion H as [|? ? F G]; subst. apply IH in G; destruct G as (G1 & G2 & G3).
        apply Forall_app in F; destruct F as (F1 & F2). split; [constructor; assumption|split; [exact G2|]].
        intros x y [->|I] J; [exact (proj1 (Forall_forall _ _) F2 y J)|auto].
      + intros (H & G2 & G3); inversion H as [|? ? F G]; subst. constructor.
        * apply Forall_app; split; [exact F|]. apply Forall_forall; intros y J; apply G3; [left; reflexivity|exact J].
        * apply IH; split; [exact G|split; [exact G2|]]. intros x y I J; apply G3; [right; exact I|exact J].
  Qed.
  Lemma fop_perm l l' : (forall x y, R x y -> R y x) -> Permutation l l' -> ForallOrdPairs R l -> ForallOrdPairs R l'.
  Proof.
    intros S P; induction P as [|x l l' P IH|x y l|l l' l'' P1 IH1 P2 IH2]; intro H.
    - exact H.
    - inversion H as [|? ? F G]; subst. constructor; [|auto]. apply Forall_forall; intros z I.
      apply (proj1 (Forall_forall _ _) F). apply (Permutation_in _ (Permutation_sym P)); exact I.
    - inversion H as [|? ? F G]; subst. inversion G as [|? ? F' G']; subst. inversion F as [|? ? F1 F2]; subst.
      constructor; [constructor; [apply S; exact F1|exact F']|constructor; assumption].
    - auto.
  Qed.
  Lemma fop_nodup {B} (f : A -> B) l : (forall x y, R x y -> f x <> f y) -> ForallOrdPairs R l -> NoDup (map f l).
  Proof.
    intros N H; induction H as [|a l F G IH]; cbn [map]; constructor; [|exact IH].
    intro I; apply in_map_iff in I; destruct I as (y & E & J). apply (N a y); [exact (proj1 (Forall_forall _ _) F y J)|congruence].
  Qed.
  Lemma fop_mid a l1 b l2 : ForallOrdPairs R (l1 ++ b :: l2) -> (forall x y, R x y -> R y x) -> In a (l1 ++ l2) -> R b a.
  Proof.
    intros H S I. apply fop_app in H; destruct H as (H1 & H2 & H3). inversion H2 as [|? ? F G]; subst.
    apply in_app_or in I; destruct I as [I|I]; [apply S, H3; [exact I|left; reflexivity]|exact (proj1 (Forall_forall _ _) F a I)].
  Qed.
End Fop.

Lemma perm_filter {A} (p : A -> bool) l l' : Permutation l l' -> Permutation (filter p l) (filter p l').
Proof.
  intro P; induction P as [|x l l' P IH|x y l|l l' l'' P1 IH1 P2 IH2]; cbn [filter].
  - constructor.
  - destruct (p x); [constructor; exact IH|exact IH].
  - destruct (p x), (p y); try apply Permutation_refl. constructor.
  - eapply Permutation_trans; eassumption.
Qed.
Lemma filter_id {A} (p : A -> bool) l : (forall x, In x l -> p x = true) -> filter p l = l.
Proof.
  induction l as [|a l IH]; intro H; cbn [filter]; [reflexivity|]. rewrite (H a (or_introl eq_refl)). f_equal; apply IH; auto with datatypes.
Qed.
Lemma map_id_in {A} (f : A -> A) l : (forall x, In x l -> f x = x) -> map f l = l.
Proof. induction l as [|a l IH]; intro H; cbn [map]; [reflexivity|]. rewrite (H a (or_introl eq_refl)); f_equal; apply IH; auto with datatypes. Qed.

(** Memory *)
Lemma store_list_ok l : forall m a, (forall x, a <= x < a + Z.of_nat (length l) -> writable m x = true) ->
  exists m', store_list m a l = Some m' /\ maps m' = maps m /\
    forall x, bytes m' x = if (a <=? x) && (x <? a + Z.of_nat (length l)) then nth (Z.to_nat (x - a)) l 0 else bytes m x.
Proof.
  induction l as [|v l IH]; intros m a H; cbn [store_list length] in *.
  - exists m; split; [reflexivity|split; [reflexivity|]]. intro x. destruct (Z.leb_spec a x), (Z.ltb_spec x (a + Z.of_nat 0)); cbn [andb]; try reflexivity; lia.
  - unfold store. rewrite (H a) by lia. cbv iota beta.
    destruct (IH (Mach (maps m) (upd (bytes m) a v)) (a + 1)) as (m' & E & M & B).
    + intros x X. change (writable m x = true). apply H; lia.
    + exists m'; split; [exact E|split; [exact M|]]. intro x; rewrite B; cbn [bytes]; unfold upd.
      destruct (Z.leb_spec (a + 1) x), (Z.ltb_spec x (a + 1 + Z.of_nat (length l))), (Z.leb_spec a x), (Z.ltb_spec x (a + Z.of_nat (S (length l)))), (Z.eqb_spec x a);
        cbn [andb]; try lia; try reflexivity.
      * replace (Z.to_nat (x - a)) with (S (Z.to_nat (x - (a + 1)))) by lia. reflexivity.
      * subst; rewrite Z.sub_diag; reflexivity.
Qed.

Lemma apart_sym a n b k : apart a n b k -> apart b k a n. Proof. unfold apart; lia. Qed.
Definition mapart (a b : mapping) : Prop := apart (m_start a) (m_len a) (m_start b) (m_len b).
Definition bapart (a b : block) : Prop := apart (b_addr a) (b_size a) (b_addr b) (b_size b).

(** Regions *)
Section Region.
  Variables (align page : Z) (foreign : list mapping).
  Hypothesis AL : 0 < align.
  Hypothesis PG : 0 < page <= 2 ^ 62.
  Hypothesis DV : (align | page).

  Definition padu (r : region) (off : Z) : Z := pad align (r_start r + off).
  Lemma pad_range x : 0 <= pad align x < align.
  Proof. apply Z.mod_pos_bound; exact AL. Qed.
  Lemma pad_div x : (align | x + pad align x).
  Proof.
    apply Z.mod_divide; [lia|]. unfold pad. rewrite Z.add_mod_idemp_r by lia.
    pose proof (Z.div_mod x align ltac:(lia)). replace (x + (align - x mod align)) with ((x / align + 1) * align) by lia.
    apply Z.mod_mul; lia.
  Qed.
  Lemma pad_zero x : (align | x) -> pad align x = 0.
  Proof. intro H; unfold pad. apply Z.mod_divide in H; [|lia]. rewrite H, Z.sub_0_r. apply Z.mod_same; lia. Qed.
  Lemma align_le : align <= page. Proof. apply Z.divide_pos_le; [lia|exact DV]. Qed.

  Fixpoint chain (r : region) (lo : Z) (us : list au) : Prop :=
    match us with
    | [] => lo <= r_size r
    | u :: us => lo <= a_off u /\ padu r (a_off u) < a_len u /\ chain r (a_off u + a_len u) us
    end.
  Record reg_ok (r : region) : Prop := RegOk {
    ro_start : 0 < r_start r; ro_page : (page | r_start r); ro_size : 0 < r_size r;
    ro_top : r_start r + r_size r <= 2 ^ 63; ro_align : r_align r = align;
    ro_chain : chain r 0 (r_units r)
  }.

  Lemma chain_le r us : forall lo, chain r lo us -> lo <= r_size r.
  Proof.
    induction us as [|u us IH]; intros lo H; cbn [chain] in H; [exact H|].
    destruct H as (H1 & H2 & H3). apply IH in H3. pose proof (pad_range (r_start r + a_off u)). unfold padu in H2; lia.
  Qed.
  Lemma chain_units r us : forall lo, chain r lo us -> forall u, In u us ->
    lo <= a_off u /\ padu r (a_off u) < a_len u /\ a_off u + a_len u <= r_size r.
  Proof.
    induction us as [|v us IH]; intros lo H u I; [destruct I|]. cbn [chain] in H; destruct H as (H1 & H2 & H3).
    destruct I as [->|I]; [split; [exact H1|split; [exact H2|exact (chain_le _ _ _ H3)]]|].
    destruct (IH _ H3 u I) as (J1 & J2 & J3). pose proof (pad_range (r_start r + a_off v)). unfold padu in *; lia.
  Qed.

  Definition endof (lo : Z) (l : list au) : Z := match l with [] => lo | _ => let u := last l (AU 0 0) in a_off u + a_len u end.
  Lemma endof_cons lo u l : endof lo (u :: l) = endof (a_off u + a_len u) l.
  Proof. destruct l as [|v l]; reflexivity. Qed.
  Lemma endof_ge r l : forall lo, chain r lo l -> lo <= endof lo l.
  Proof.
    induction l as [|u l IH]; intros lo C; [cbn; lia|]. rewrite endof_cons. cbn [chain] in C; destruct C as (A & B & C).
    apply IH in C. pose proof (pad_range (r_start r + a_off u)). unfold padu in B; lia.
  Qed.
  Lemma endof_in r l : forall lo, chain r lo l -> forall u, In u l -> a_off u <= endof lo l.
  Proof.
    induction l as [|v l IH]; intros lo C u I; [destruct I|]. rewrite endof_cons. cbn [chain] in C; destruct C as (A & B & C).
    destruct I as [->|I]; [|exact (IH _ C u I)]. apply endof_ge in C. pose proof (pad_range (r_start r + a_off u)). unfold padu in B; lia.
  Qed.
  Definition gap_at (r : region) (lo : Z) (us : list au) (pos gs : Z) : Prop :=
    exists l1 l2, us = l1 ++ l2 /\ pos = endof lo l1 /\ pos + gs = match l2 with [] => r_size r | u :: _ => a_off u end.

  Lemma check_gap_spec r gb ge req best : reg_ok r -> 0 <= gb -> gb <= ge -> ge <= r_size r -> 0 < req <= 2 ^ 62 ->
    check_gap r gb ge req best = best \/
    (check_gap r gb ge req best = (gb, ge - gb, padu r gb) /\ req + padu r gb <= ge - gb).
  Proof.
    intros R H0 H1 H2 H3. destruct R as [Rs Rp Rz Rt Ra Rc]. unfold check_gap. destruct best as [[bp bs] ba].
    pose proof (pad_range (r_start r + gb)). pose proof align_le. rewrite Ra.
    rewrite (wsm (ge - gb)), (wsm (r_start r + gb)) by lia. rewrite wsm by lia. fold (padu r gb) in *.
    destruct (Z.geb_spec (ge - gb) (req + padu r gb)), (Z.ltb_spec (ge - gb) bs); cbn [andb]; auto.
  Qed.

  Definition good_gap (r : region) (req lo : Z) (us : list au) (g : Z * Z * Z) : Prop :=
    let '(pos, gs, al) := g in gap_at r lo us pos gs /\ al = padu r pos /\ req + al <= gs.

  Lemma gap_loop_spec r req : reg_ok r -> 0 < req <= 2 ^ 62 -> forall us lo best, 0 <= lo -> chain r lo us ->
    gap_loop r req lo us best = best \/ good_gap r req lo us (gap_loop r req lo us best).
  Proof.
    intros R Q. induction us as [|u us IH]; intros lo best L C; cbn [gap_loop].
    - cbn [chain] in C. destruct (check_gap_spec r lo (r_size r) req best R L C ltac:(lia) Q) as [E|(E & H)]; [left; exact E|right].
      rewrite E; split; [|split; [reflexivity|exact H]]. exists [], []; split; [reflexivity|split; [reflexivity|]]. lia.
    - cbn [chain] in C; destruct C as (C1 & C2 & C3). pose proof (pad_range (r_start r + a_off u)). pose proof (chain_le _ _ _ C3).
      destruct R as [Rs Rp Rz Rt Ra Rc]. assert (R : reg_ok r) by (constructor; assumption).
      unfold padu in C2. rewrite wsm by lia.
      destruct (IH (a_off u + a_len u) (check_gap r lo (a_off u) req best) ltac:(lia) C3) as [E|G].
      + rewrite E. destruct (check_gap_spec r lo (a_off u) req best R L C1 ltac:(lia) Q) as [E'|(E' & H')]; [left; exact E'|right].
        rewrite E'; split; [|split; [reflexivity|exact H']]. exists [], (u :: us); split; [reflexivity|split; [reflexivity|]]. lia.
      + right. destruct (gap_loop r req (a_off u + a_len u) us (check_gap r lo (a_off u) req best)) as [[pos gs] al].
        destruct G as ((l1 & l2 & E1 & E2 & E3) & G2 & G3). split; [|split; [exact G2|exact G3]].
        exists (u :: l1), l2; split; [cbn [app]; congruence|split; [rewrite endof_cons; exact E2|exact E3]].
  Qed.

  Lemma push_sorted_mid l1 l2 x : (forall u, In u l1 -> a_off u <= a_off x) ->
    (match l2 with [] => True | u :: _ => a_off x < a_off u end) -> push_sorted (l1 ++ l2) x = l1 ++ x :: l2.
  Proof.
    induction l1 as [|u l1 IH]; intros H1 H2; cbn [app push_sorted].
    - destruct l2 as [|v l2]; cbn [push_sorted]; [reflexivity|]. destruct (Z.ltb_spec (a_off x) (a_off v)); [reflexivity|lia].
    - destruct (Z.ltb_spec (a_off x) (a_off u)); [specialize (H1 u (or_introl eq_refl)); lia|]. f_equal; apply IH; auto with datatypes.
  Qed.
  Lemma chain_app r l1 l2 : forall lo, chain r lo (l1 ++ l2) <->
    ((match l1 with [] => True | _ => chain r lo l1 end) /\ chain r (endof lo l1) l2).
  Proof.
    induction l1 as [|u l1 IH]; intro lo; cbn [app].
    - cbn [endof]; tauto.
    - rewrite endof_cons. cbn [chain]. rewrite IH. split.
      + intros (A & B & C & D). split; [|exact D]. split; [exact A|split; [exact B|]].
        destruct l1; [cbn [chain endof] in *; apply (chain_le _ _ _ D)|exact C].
      + intros ((A & B & C) & D). split; [exact A|split; [exact B|split; [destruct l1; [exact I|exact C]|exact D]]].
  Qed.

  (** the blocks of a region *)
  Definition blk (r : region) (u : au) : block := Block (r_start r + a_off u + padu r (a_off u)) (a_len u - padu r (a_off u)) (r_iso r).
  Definition blocks (r : region) : list block := map (blk r) (r_units r).

  Lemma au_addr_blk r u : reg_ok r -> In u (r_units r) -> au_addr r u = b_addr (blk r u).
  Proof.
    intros R I. destruct (chain_units _ _ _ (ro_chain r R) u I) as (A & B & C). unfold au_addr. destruct R as [Rs Rp Rz Rt Ra Rc].
    pose proof (pad_range (r_start r + a_off u)). unfold padu in *. cbv zeta. rewrite Ra. rewrite (wsm (r_start r + a_off u)) by lia.
    rewrite wsm by lia. reflexivity.
  Qed.
  Lemma blk_within r u : reg_ok r -> In u (r_units r) ->
    0 < b_size (blk r u) /\ within (b_addr (blk r u)) (b_size (blk r u)) (r_start r) (r_size r) /\ (align | b_addr (blk r u)) /\
    within (b_addr (blk r u)) (b_size (blk r u)) (r_start r + a_off u) (a_len u) /\ 0 <= a_off u.
  Proof.
    intros R I. destruct (chain_units _ _ _ (ro_chain r R) u I) as (A & B & C). destruct R as [Rs Rp Rz Rt Ra Rc].
    pose proof (pad_range (r_start r + a_off u)) as P. unfold within, blk, padu in *; cbn [b_addr b_size].
    split; [lia|split; [lia|split; [apply pad_div|lia]]].
  Qed.
  Lemma chain_pairs r us : forall lo, chain r lo us -> ForallOrdPairs (fun u v => a_off u + a_len u <= a_off v) us.
  Proof.
    induction us as [|u us IH]; intros lo C; constructor.
    - cbn [chain] in C. apply Forall_forall; intros v I. destruct (chain_units _ _ _ (proj2 (proj2 C)) v I) as (A & _); exact A.
    - cbn [chain] in C. exact (IH _ (proj2 (proj2 C))).
  Qed.
  Lemma blocks_apart r : reg_ok r -> ForallOrdPairs bapart (blocks r).
  Proof.
    intro R. assert (P := chain_pairs _ _ _ (ro_chain r R)). unfold blocks.
    assert (K : forall us, (forall u, In u us -> In u (r_units r)) -> ForallOrdPairs (fun u v => a_off u + a_len u <= a_off v) us ->
                ForallOrdPairs bapart (map (blk r) us)); [|exact (K _ (fun _ I => I) P)].
    induction us as [|u us IH]; intros S F; cbn [map]; [constructor|]. inversion F as [|? ? F1 F2]; subst. constructor.
    - apply Forall_forall; intros b I; apply in_map_iff in I; destruct I as (v & <- & J).
      pose proof (proj1 (Forall_forall _ _) F1 v J) as Q.
      destruct (blk_within r u R (S u (or_introl eq_refl))) as (_ & _ & _ & W1 & _).
      destruct (blk_within r v R (S v (or_intror J))) as (_ & _ & _ & W2 & _).
      unfold bapart, apart, within in *. lia.
    - apply IH; [auto with datatypes|exact F2].
  Qed.

  (** TryAlloc *)
  Lemma try_alloc_spec r req r' a : reg_ok r -> 0 < req <= 2 ^ 62 -> try_alloc r req = Some (r', a) ->
    (r_iso r = true -> r_units r = []) /\
    exists us, r' = with_units r us /\ reg_ok r' /\ us <> [] /\ (r_units r = [] -> length us = 1%nat) /\
      Permutation (blocks r') (Block a req (r_iso r) :: blocks r).
  Proof.
    intros R Q. unfold try_alloc. destruct (r_iso r && negb (is_nil (r_units r))) eqn:I; [discriminate|].
    destruct (gap_loop_spec r req R Q (r_units r) 0 (w (r_size r + 1), w (r_size r + 1), 0) ltac:(lia) (ro_chain r R)) as [E|G].
    - rewrite E. rewrite wsm by (destruct R; lia). destruct (Z.ltb_spec (r_size r + 1) (r_size r)); [lia|discriminate].
    - destruct (gap_loop r req 0 (r_units r) (w (r_size r + 1), w (r_size r + 1), 0)) as [[pos gs] al].
      destruct G as ((l1 & l2 & E1 & E2 & E3) & G2 & G3). destruct (Z.ltb_spec pos (r_size r)) as [L|L]; [|discriminate].
      intros [= <- <-]. split.
      { intro IS; rewrite IS in I; destruct (r_units r); [reflexivity|discriminate I]. }
      pose proof (pad_range (r_start r + pos)) as P. fold (padu r pos) in P. rewrite <- G2 in P.
      assert (C := ro_chain r R). rewrite E1 in C. apply chain_app in C; destruct C as (C1 & C2).
      assert (Cle : chain r 0 l1) by (destruct l1; [cbn; destruct R; lia|exact C1]).
      assert (EL : forall u, In u l1 -> a_off u <= pos) by (intros u I1; rewrite E2; exact (endof_in _ _ _ Cle u I1)).
      assert (P0 : 0 <= pos) by (rewrite E2; exact (endof_ge _ _ _ Cle)).
      assert (GS : pos + gs <= r_size r).
      { rewrite E3. destruct l2 as [|u l2]; [lia|]. cbn [chain] in C2. pose proof (chain_le _ _ _ (proj2 (proj2 C2))).
        pose proof (pad_range (r_start r + a_off u)). unfold padu in C2; lia. }
      assert (RB := R); destruct RB as [Rs Rp Rz Rt Ra Rc].
      rewrite (wsm (req + al)) by lia. rewrite wsm by lia.
      assert (PS : push_sorted (r_units r) (AU pos (req + al)) = l1 ++ AU pos (req + al) :: l2).
      { rewrite E1. apply push_sorted_mid; cbn [a_off]; [intros u I1; apply EL; exact I1|]. destruct l2 as [|u l2]; [exact Logic.I|]. lia. }
      rewrite PS. exists (l1 ++ AU pos (req + al) :: l2). split; [reflexivity|].
      assert (R' : reg_ok (with_units r (l1 ++ AU pos (req + al) :: l2))).
      { constructor; try assumption. cbn [r_units with_units].
        assert (CE : forall us lo, chain (with_units r (l1 ++ AU pos (req + al) :: l2)) lo us <-> chain r lo us).
        { induction us as [|u us IH]; intro lo; cbn [chain]; [reflexivity|]. rewrite IH. reflexivity. }
        apply CE, chain_app. split; [destruct l1; [exact Logic.I|exact Cle]|]. rewrite <- E2. cbn [chain a_off a_len].
        split; [lia|split; [rewrite <- G2; lia|]]. destruct l2 as [|u l2]; cbn [chain] in *; [lia|]. split; [lia|exact (proj2 C2)]. }
      split; [exact R'|]. split; [destruct l1; discriminate|]. split.
      { intro EN. rewrite E1 in EN. apply app_eq_nil in EN; destruct EN as (-> & ->). reflexivity. }
      unfold blocks; cbn [r_units with_units]. rewrite E1, !map_app. cbn [map].
      assert (BE : forall u, blk (with_units r (l1 ++ AU pos (req + al) :: l2)) u = blk r u) by reflexivity.
      rewrite !(map_ext _ _ BE), BE.
      replace (blk r (AU pos (req + al))) with (Block (r_start r + pos + al) req (r_iso r))
        by (unfold blk; cbn [a_off a_len]; rewrite <- G2; f_equal; lia).
      apply Permutation_sym, Permutation_middle.
  Qed.

  (** a fresh region *)
  Lemma try_alloc_fresh r req : reg_ok r -> r_units r = [] -> 0 < req <= r_size r -> req <= 2 ^ 62 ->
    exists r', try_alloc r req = Some (r', r_start r).
  Proof.
    intros R U Q Q2. assert (RB := R); destruct RB as [Rs Rp Rz Rt Ra Rc]. unfold try_alloc; rewrite U. cbn [is_nil negb]. rewrite andb_false_r.
    cbn [gap_loop]. unfold check_gap. rewrite Ra, Z.sub_0_r, Z.add_0_r.
    rewrite (wsm (r_start r)) by lia. rewrite (pad_zero (r_start r)) by (apply (Z.divide_trans _ page); assumption).
    rewrite Z.add_0_r, !wsm by lia.
    destruct (Z.geb_spec (r_size r) req); [|lia]. destruct (Z.ltb_spec (r_size r) (r_size r + 1)); [|lia]. cbn [andb].
    destruct (Z.ltb_spec 0 (r_size r)); [|lia]. rewrite !Z.add_0_r. rewrite (wsm (r_start r)) by lia. eexists; reflexivity.
  Qed.

  (** The invariant *)
  Definition reg_map (r : region) : mapping := Map (r_start r) (r_size r) (negb (r_re r)).
  Record inv (m : mach) (pa : palloc) (l : list block) : Prop := Inv {
    i_align : p_align pa = align; i_page : p_page pa = page;
    i_regs : Forall (fun r => reg_ok r /\ r_units r <> [] /\ (r_iso r = true -> length (r_units r) = 1%nat)) (p_regs pa);
    i_maps : Permutation (maps m) (map reg_map (p_regs pa) ++ foreign);
    i_len : Forall (fun mp => 0 < m_len mp) (maps m);
    i_apart : ForallOrdPairs mapart (maps m);
    i_blocks : Permutation l (flat_map blocks (p_regs pa))
  }.

  Lemma mapart_sym a b : mapart a b -> mapart b a. Proof. apply apart_sym. Qed.
  Lemma mapart_start a b : 0 < m_len a -> 0 < m_len b -> mapart a b -> m_start a <> m_start b.
  Proof. unfold mapart, apart; lia. Qed.

  Lemma nodup_starts ms : Forall (fun mp => 0 < m_len mp) ms -> ForallOrdPairs mapart ms -> NoDup (map m_start ms).
  Proof.
    intros P H; induction H as [|a l F G IH]; cbn [map]; [constructor|]. inversion P as [|? ? P1 P2]; subst. constructor; [|auto].
    intro I; apply in_map_iff in I; destruct I as (y & E & J).
    apply (mapart_start a y); [exact P1|exact (proj1 (Forall_forall _ _) P2 y J)|exact (proj1 (Forall_forall _ _) F y J)|congruence].
  Qed.
  Lemma inv_starts m pa l : inv m pa l -> NoDup (map m_start (map reg_map (p_regs pa) ++ foreign)).
  Proof.
    intro V. apply (Permutation_NoDup (l := map m_start (maps m))); [apply Permutation_map, (i_maps _ _ _ V)|].
    apply nodup_starts; [exact (i_len _ _ _ V)|exact (i_apart _ _ _ V)].
  Qed.

  Lemma inv_reg m pa l r : inv m pa l -> In r (p_regs pa) ->
    reg_ok r /\ r_units r <> [] /\ (r_iso r = true -> length (r_units r) = 1%nat) /\ In (reg_map r) (maps m).
  Proof.
    intros V I. destruct (proj1 (Forall_forall _ _) (i_regs _ _ _ V) r I) as (A & B & C). repeat (split; [assumption|]).
    apply (Permutation_in _ (Permutation_sym (i_maps _ _ _ V))). apply in_or_app; left. apply in_map; exact I.
  Qed.
  Lemma inv_writable m pa l r a : inv m pa l -> In r (p_regs pa) -> r_re r = false -> r_start r <= a < r_start r + r_size r -> writable m a = true.
  Proof.
    intros V I RE A. destruct (inv_reg _ _ _ _ V I) as (_ & _ & _ & J). unfold writable. apply existsb_exists.
    exists (reg_map r); split; [exact J|]. unfold inside, reg_map; cbn [m_start m_len m_w]. rewrite RE; cbn [negb].
    rewrite andb_true_r. apply andb_true_iff; split; [apply Z.leb_le|apply Z.ltb_lt]; lia.
  Qed.

  Lemma regs_apart m pa l : inv m pa l -> ForallOrdPairs mapart (map reg_map (p_regs pa) ++ foreign).
  Proof. intro V. apply (fop_perm mapart (maps m)); [exact mapart_sym|exact (i_maps _ _ _ V)|exact (i_apart _ _ _ V)]. Qed.

  Lemma flat_apart rs : Forall reg_ok rs -> ForallOrdPairs mapart (map reg_map rs) -> ForallOrdPairs bapart (flat_map blocks rs).
  Proof.
    induction rs as [|r rs IH]; intros F P; cbn [flat_map map] in *; [constructor|].
    inversion F as [|? ? F1 F2]; subst. inversion P as [|? ? P1 P2]; subst. apply fop_app. split; [apply blocks_apart; exact F1|split; [auto|]].
    intros x y I J. apply in_flat_map in J; destruct J as (r2 & J1 & J2). unfold blocks in I, J2.
    apply in_map_iff in I; destruct I as (u & <- & I). apply in_map_iff in J2; destruct J2 as (v & <- & J2).
    pose proof (proj1 (Forall_forall _ _) P1 (reg_map r2) (in_map reg_map _ _ J1)) as Q.
    destruct (blk_within r u F1 I) as (_ & W1 & _). destruct (blk_within r2 v (proj1 (Forall_forall _ _) F2 r2 J1) J2) as (_ & W2 & _).
    unfold mapart, bapart, apart, within, reg_map in *; cbn [m_start m_len] in *. lia.
  Qed.
  Lemma inv_regok m pa l : inv m pa l -> Forall reg_ok (p_regs pa).
  Proof. intro V. eapply Forall_impl; [|exact (i_regs _ _ _ V)]. intros r (A & _); exact A. Qed.
  Lemma inv_flat m pa l : inv m pa l -> ForallOrdPairs bapart (flat_map blocks (p_regs pa)).
  Proof.
    intro V. apply flat_apart; [exact (inv_regok _ _ _ V)|]. exact (proj1 (proj1 (fop_app _ _ _) (regs_apart _ _ _ V))).
  Qed.
  Lemma bapart_sym a b : bapart a b -> bapart b a. Proof. apply apart_sym. Qed.
  Lemma flat_size rs b : Forall reg_ok rs -> In b (flat_map blocks rs) -> 0 < b_size b.
  Proof.
    intros F I. apply in_flat_map in I; destruct I as (r & I1 & I2). unfold blocks in I2. apply in_map_iff in I2; destruct I2 as (u & <- & I2).
    apply (blk_within r u (proj1 (Forall_forall _ _) F r I1) I2).
  Qed.
  Lemma inv_addrs m pa l : inv m pa l -> NoDup (map b_addr (flat_map blocks (p_regs pa))).
  Proof.
    intro V. assert (S := flat_size (p_regs pa)). assert (P := inv_flat _ _ _ V). assert (F := inv_regok _ _ _ V).
    assert (K : forall bs, (forall b, In b bs -> 0 < b_size b) -> ForallOrdPairs bapart bs -> NoDup (map b_addr bs)).
    { intros bs Q H; induction H as [|a bs G H IH]; cbn [map]; constructor; [|apply IH; auto with datatypes].
      intro I; apply in_map_iff in I; destruct I as (y & E & J). pose proof (proj1 (Forall_forall _ _) G y J) as X.
      pose proof (Q a (or_introl eq_refl)). pose proof (Q y (or_intror J)). unfold bapart, apart in X. lia. }
    apply K; [intros b I; exact (S _ F I)|exact P].
  Qed.

  (** Changing the mapping of one region *)
  Lemma prot_maps m rs1 r rs2 wr : Permutation (maps m) (map reg_map (rs1 ++ r :: rs2) ++ foreign) ->
    NoDup (map m_start (map reg_map (rs1 ++ r :: rs2) ++ foreign)) ->
    Permutation (maps (os_prot m (r_start r) wr)) (map reg_map (rs1 ++ with_re r (negb wr) :: rs2) ++ foreign).
  Proof.
    intros P N. unfold os_prot; cbn [maps]. set (f := fun mp => if m_start mp =? r_start r then Map (r_start r) (m_len mp) wr else mp).
    eapply Permutation_trans; [exact (Permutation_map f P)|].
    assert (E : map f (map reg_map (rs1 ++ r :: rs2) ++ foreign) = map reg_map (rs1 ++ with_re r (negb wr) :: rs2) ++ foreign);
      [|rewrite E; apply Permutation_refl].
    repeat (rewrite map_app in N; cbn [map] in N). rewrite <- ?app_assoc in N. cbn [app] in N.
    repeat (rewrite map_app; cbn [map]). rewrite <- ?app_assoc. cbn [app].
    assert (OUT : forall mp, In mp (map reg_map rs1 ++ map reg_map rs2 ++ foreign) -> f mp = mp).
    { intros mp I. unfold f. destruct (Z.eqb_spec (m_start mp) (r_start r)) as [X|X]; [exfalso|reflexivity].
      apply NoDup_remove_2 in N. apply N. change (m_start (reg_map r)) with (r_start r). rewrite <- X, <- !map_app. apply in_map; exact I. }
    f_equal; [apply map_id_in; intros mp I; apply OUT, in_or_app; left; exact I|].
    f_equal; [unfold f, reg_map; cbn [m_start m_len with_re r_start r_size r_re]; rewrite Z.eqb_refl, negb_involutive; reflexivity|].
    f_equal; apply map_id_in; intros mp I; apply OUT, in_or_app; right; apply in_or_app; auto.
  Qed.
  Lemma unmap_maps m rs1 r rs2 : Permutation (maps m) (map reg_map (rs1 ++ r :: rs2) ++ foreign) ->
    NoDup (map m_start (map reg_map (rs1 ++ r :: rs2) ++ foreign)) ->
    Permutation (maps (os_unmap m (r_start r))) (map reg_map (rs1 ++ rs2) ++ foreign).
  Proof.
    intros P N. unfold os_unmap; cbn [maps]. eapply Permutation_trans; [exact (perm_filter _ _ _ P)|].
    assert (E : filter (fun mp => negb (m_start mp =? r_start r)) (map reg_map (rs1 ++ r :: rs2) ++ foreign) = map reg_map (rs1 ++ rs2) ++ foreign);
      [|rewrite E; apply Permutation_refl].
    repeat (rewrite map_app in N; cbn [map] in N). rewrite <- ?app_assoc in N. cbn [app] in N.
    repeat (rewrite map_app; cbn [map]). rewrite <- ?app_assoc. cbn [app].
    assert (OUT : forall mp, In mp (map reg_map rs1 ++ map reg_map rs2 ++ foreign) -> negb (m_start mp =? r_start r) = true).
    { intros mp I. destruct (Z.eqb_spec (m_start mp) (r_start r)) as [X|X]; [exfalso|reflexivity].
      apply NoDup_remove_2 in N. apply N. change (m_start (reg_map r)) with (r_start r). rewrite <- X, <- !map_app. apply in_map; exact I. }
    rewrite filter_app. cbn [filter reg_map m_start]. rewrite Z.eqb_refl; cbn [negb].
    rewrite filter_id by (intros mp I; apply OUT, in_or_app; left; exact I). f_equal.
    apply filter_id; intros mp I; apply OUT, in_or_app; right; exact I.
  Qed.

  Lemma perm_len ms ms' : Permutation ms ms' -> Forall (fun mp => 0 < m_len mp) ms -> Forall (fun mp => 0 < m_len mp) ms'.
  Proof. intros P F. apply Forall_forall; intros mp I. apply (proj1 (Forall_forall _ _) F). apply (Permutation_in _ (Permutation_sym P)); exact I. Qed.

  (** mappings with the same ranges *)
  Lemma same_ranges ms ms' : map (fun mp => (m_start mp, m_len mp)) ms = map (fun mp => (m_start mp, m_len mp)) ms' ->
    ForallOrdPairs mapart ms -> ForallOrdPairs mapart ms'.
  Proof.
    revert ms'; induction ms as [|a ms IH]; intros [|b ms'] E F; cbn [map] in E; try discriminate; [constructor|].
    injection E as E1 E2 E3. inversion F as [|? ? F1 F2]; subst. constructor; [|exact (IH _ E3 F2)].
    apply Forall_forall; intros y J. assert (K : In (m_start y, m_len y) (map (fun mp => (m_start mp, m_len mp)) ms))
      by (rewrite E3; apply (in_map (fun mp => (m_start mp, m_len mp))); exact J).
    apply in_map_iff in K; destruct K as (x & X & I). injection X as X1 X2.
    pose proof (proj1 (Forall_forall _ _) F1 x I) as Q. unfold mapart in *. congruence.
  Qed.
  Lemma prot_ranges m s wr : map (fun mp => (m_start mp, m_len mp)) (maps (os_prot m s wr)) = map (fun mp => (m_start mp, m_len mp)) (maps m).
  Proof.
    unfold os_prot; cbn [maps]. rewrite map_map. apply map_ext. intro mp. destruct (Z.eqb_spec (m_start mp) s); [subst; reflexivity|reflexivity].
  Qed.

  (** DebugCleanMemory *)
  Lemma clean_ok m pa l r u : inv m pa l -> In r (p_regs pa) -> In u (r_units r) ->
    exists m', clean m r (w (r_start r + a_off u)) (a_len u) = Some m' /\ maps m' = maps m /\
      forall x, ~ (r_start r + a_off u <= x < r_start r + a_off u + a_len u) -> bytes m' x = bytes m x.
  Proof.
    intros V I J. destruct (inv_reg _ _ _ _ V I) as (R & _ & _ & K). destruct (chain_units _ _ _ (ro_chain r R) u J) as (A & B & C).
    pose proof (pad_range (r_start r + a_off u)). unfold padu in B. assert (RB := R); destruct RB as [Rs Rp Rz Rt Ra Rc].
    rewrite wsm by lia. unfold clean. set (m1 := if r_re r then os_prot m (r_start r) true else m).
    assert (W : forall x, r_start r <= x < r_start r + r_size r -> writable m1 x = true).
    { intros x X. unfold m1. destruct (r_re r) eqn:RE; [|exact (inv_writable _ _ _ _ _ V I RE X)].
      unfold writable. apply existsb_exists. exists (Map (r_start r) (r_size r) true). split.
      - unfold os_prot; cbn [maps]. apply in_map_iff. exists (reg_map r); split; [|exact K]. cbn [reg_map m_start m_len]. rewrite Z.eqb_refl; reflexivity.
      - unfold inside; cbn [m_start m_len m_w]. rewrite andb_true_r. apply andb_true_iff; split; [apply Z.leb_le|apply Z.ltb_lt]; lia. }
    assert (LR : Z.of_nat (length (repeat 204 (Z.to_nat (a_len u)))) = a_len u) by (rewrite repeat_length; lia).
    destruct (store_list_ok (repeat 204 (Z.to_nat (a_len u))) m1 (r_start r + a_off u)) as (m2 & E & M & BB).
    { rewrite LR. intros x X; apply W; lia. }
    rewrite E; cbv iota beta. eexists; split; [reflexivity|]. rewrite LR in BB.
    assert (B1 : forall x, ~ (r_start r + a_off u <= x < r_start r + a_off u + a_len u) -> bytes m2 x = bytes m x).
    { intros x X. rewrite BB. destruct (Z.leb_spec (r_start r + a_off u) x), (Z.ltb_spec x (r_start r + a_off u + a_len u)); cbn [andb]; try lia;
        unfold m1; destruct (r_re r); reflexivity. }
    unfold m1 in M. destruct (r_re r) eqn:RE; [|split; [exact M|exact B1]].
    split; [|exact B1]. unfold os_prot; cbn [maps]. rewrite M. unfold os_prot; cbn [maps]. rewrite map_map.
    apply map_id_in. intros mp IM. destruct (Z.eqb_spec (m_start mp) (r_start r)) as [X|X].
    - cbn [m_start m_len]. rewrite Z.eqb_refl. assert (Q : mp = reg_map r).
      { pose proof (nodup_starts _ (i_len _ _ _ V) (i_apart _ _ _ V)) as N.
        assert (INJ : forall l (a b : mapping), NoDup (map m_start l) -> In a l -> In b l -> m_start a = m_start b -> a = b).
        { clear. induction l as [|c l IH]; intros a b N I J E; [destruct I|]. cbn [map] in N; inversion N as [|? ? N1 N2]; subst.
          destruct I as [->|I], J as [->|J]; [reflexivity| | |exact (IH a b N2 I J E)].
          - exfalso; apply N1. rewrite E. apply in_map; exact J.
          - exfalso; apply N1. rewrite <- E. apply in_map; exact I. }
        exact (INJ (maps m) mp (reg_map r) N IM K X). }
      rewrite Q. unfold reg_map; cbn [m_len]. rewrite RE; reflexivity.
    - destruct (Z.eqb_spec (m_start mp) (r_start r)); [contradiction|reflexivity].
  Qed.

  (** Free *)
  Lemma free_unit_none m r us p : (forall u, In u us -> au_addr r u <> p) -> free_unit m r us p = Some (m, None).
  Proof.
    induction us as [|u us IH]; intro H; cbn [free_unit]; [reflexivity|].
    destruct (Z.eqb_spec p (au_addr r u)) as [X|X]; [exfalso; apply (H u (or_introl eq_refl)); congruence|].
    rewrite IH by auto with datatypes. reflexivity.
  Qed.
  Lemma free_unit_some m m' r l1 u l2 : (forall v, In v l1 -> au_addr r v <> au_addr r u) ->
    clean m r (w (r_start r + a_off u)) (a_len u) = Some m' ->
    free_unit m r (l1 ++ u :: l2) (au_addr r u) = Some (m', Some (l1 ++ l2)).
  Proof.
    intros H C. induction l1 as [|v l1 IH]; cbn [app free_unit].
    - rewrite Z.eqb_refl, C. reflexivity.
    - destruct (Z.eqb_spec (au_addr r u) (au_addr r v)) as [X|X]; [exfalso; apply (H v (or_introl eq_refl)); congruence|].
      rewrite IH by auto with datatypes. reflexivity.
  Qed.
  Lemma reg_addrs r p : reg_ok r -> ~ In p (map b_addr (blocks r)) -> forall u, In u (r_units r) -> au_addr r u <> p.
  Proof.
    intros R N u I E. apply N. rewrite (au_addr_blk r u R I) in E. rewrite <- E. apply in_map. unfold blocks. apply in_map; exact I.
  Qed.
  Lemma free_in_none m rs p : Forall reg_ok rs -> ~ In p (map b_addr (flat_map blocks rs)) -> free_in m rs p = Some (m, rs).
  Proof.
    induction rs as [|r rs IH]; intros F N; cbn [free_in flat_map] in *; [reflexivity|]. inversion F as [|? ? F1 F2]; subst.
    rewrite map_app in N. assert (N1 : ~ In p (map b_addr (blocks r))) by (intro; apply N, in_or_app; auto).
    assert (N2 : ~ In p (map b_addr (flat_map blocks rs))) by (intro; apply N, in_or_app; auto).
    assert (T : try_free m r p = Some (m, None)).
    { unfold try_free. destruct (negb (contains r p)); [reflexivity|]. rewrite (free_unit_none m r _ p (reg_addrs r p F1 N1)). reflexivity. }
    rewrite T. rewrite (IH F2 N2). reflexivity.
  Qed.
  Lemma free_in_some m m' rs1 r rs2 l1 u l2 : Forall reg_ok rs1 -> reg_ok r -> r_units r = l1 ++ u :: l2 ->
    ~ In (b_addr (blk r u)) (map b_addr (flat_map blocks rs1)) -> (forall v, In v l1 -> b_addr (blk r v) <> b_addr (blk r u)) ->
    clean m r (w (r_start r + a_off u)) (a_len u) = Some m' ->
    free_in m (rs1 ++ r :: rs2) (b_addr (blk r u)) =
      if is_nil (l1 ++ l2) then Some (os_unmap m' (r_start r), rs1 ++ rs2) else Some (m', rs1 ++ with_units r (l1 ++ l2) :: rs2).
  Proof.
    intros F R U N D C. assert (IU : In u (r_units r)) by (rewrite U; apply in_or_app; right; left; reflexivity).
    induction rs1 as [|x rs1 IH]; cbn [app free_in flat_map] in *.
    - assert (T : try_free m r (b_addr (blk r u)) = Some (m', Some (with_units r (l1 ++ l2)))).
      { unfold try_free, contains. destruct (blk_within r u R IU) as (S & (W1 & W2) & _).
        rewrite wsm by (destruct R; lia). destruct (Z.leb_spec (r_start r) (b_addr (blk r u))); [|lia].
        destruct (Z.ltb_spec (b_addr (blk r u)) (r_start r + r_size r)); [|lia]. cbn [andb negb].
        rewrite U, <- (au_addr_blk r u R IU). rewrite (free_unit_some m m' r l1 u l2); [reflexivity| |exact C].
        intros v IV. assert (IV' : In v (r_units r)) by (rewrite U; apply in_or_app; left; exact IV).
        rewrite (au_addr_blk r u R IU), (au_addr_blk r v R IV'). exact (D v IV). }
      rewrite T. cbn [with_units r_units]. destruct (is_nil (l1 ++ l2)); reflexivity.
    - inversion F as [|? ? F1 F2]; subst. rewrite map_app in N.
      assert (T : try_free m x (b_addr (blk r u)) = Some (m, None)).
      { unfold try_free. destruct (negb (contains x (b_addr (blk r u)))); [reflexivity|].
        rewrite free_unit_none; [reflexivity|]. apply reg_addrs; [exact F1|]. intro; apply N, in_or_app; auto. }
      rewrite T. rewrite (IH F2) by (intro; apply N, in_or_app; auto). destruct (is_nil (l1 ++ l2)); reflexivity.
  Qed.

  Lemma filter_mid (p : Z) l1 b l2 : NoDup (map b_addr (l1 ++ b :: l2)) -> b_addr b = p ->
    filter (fun b => negb (b_addr b =? p)) (l1 ++ b :: l2) = l1 ++ l2.
  Proof.
    intros N E. rewrite map_app in N; cbn [map] in N. apply NoDup_remove_2 in N. rewrite filter_app; cbn [filter]. rewrite E, Z.eqb_refl; cbn [negb].
    rewrite !filter_id; [reflexivity| |]; intros x I; destruct (Z.eqb_spec (b_addr x) p) as [X|X]; try reflexivity; exfalso; apply N;
      rewrite E, <- X; apply in_or_app; [right|left]; apply in_map; exact I.
  Qed.

  Lemma chain_remove r us' l1 u l2 : forall lo, chain r lo (l1 ++ u :: l2) -> chain (with_units r us') lo (l1 ++ l2).
  Proof.
    assert (W : forall us lo lo', lo' <= lo -> chain r lo us -> chain (with_units r us') lo' us).
    { induction us as [|x us IH]; intros lo lo' L C; cbn [chain] in *; [cbn [with_units r_size]; lia|].
      destruct C as (A & B & C). split; [lia|split; [exact B|exact (IH _ _ (Z.le_refl _) C)]]. }
    induction l1 as [|x l1 IH]; intros lo C; cbn [app chain] in *.
    - destruct C as (A & B & C). apply (W l2 (a_off u + a_len u)); [|exact C]. pose proof (pad_range (r_start r + a_off u)). unfold padu in B; lia.
    - destruct C as (A & B & C). split; [exact A|split; [exact B|exact (IH _ C)]].
  Qed.

  Definition keeps (m m' : mach) (l : list block) : Prop :=
    forall b a, In b l -> b_addr b <= a < b_addr b + b_size b -> bytes m' a = bytes m a.

  Lemma free_ok m pa l p : inv m pa l ->
    exists m' rs, free_in m (p_regs pa) p = Some (m', rs) /\
      inv m' (PA (p_align pa) (p_page pa) rs) (filter (fun b => negb (b_addr b =? p)) l) /\
      keeps m m' (filter (fun b => negb (b_addr b =? p)) l) /\
      (~ In p (map b_addr l) -> m' = m /\ rs = p_regs pa) /\
      (forall mp, In mp (maps m') -> In mp (maps m)).
  Proof.
    intro V. assert (F := inv_regok _ _ _ V). assert (ND := inv_addrs _ _ _ V). assert (PB := i_blocks _ _ _ V).
    destruct (in_dec Z.eq_dec p (map b_addr (flat_map blocks (p_regs pa)))) as [I|I].
    - apply in_map_iff in I; destruct I as (b & E & I). apply in_flat_map in I; destruct I as (r & I1 & I2).
      unfold blocks in I2. apply in_map_iff in I2; destruct I2 as (u & EB & I2). subst b.
      destruct (clean_ok _ _ _ r u V I1 I2) as (m1 & C & M1 & B1).
      destruct (in_split _ _ I1) as (rs1 & rs2 & ER). destruct (in_split _ _ I2) as (l1 & l2 & EU).
      assert (R := proj1 (Forall_forall _ _) F r I1).
      rewrite ER in ND, PB, F |- *. apply Forall_app in F; destruct F as (F1 & F2).
      assert (FM : flat_map blocks (rs1 ++ r :: rs2) = (flat_map blocks rs1 ++ map (blk r) l1) ++ blk r u :: (map (blk r) l2 ++ flat_map blocks rs2)).
      { rewrite flat_map_app. cbn [flat_map]. unfold blocks at 2. rewrite EU, map_app. cbn [map]. rewrite <- !app_assoc. reflexivity. }
      rewrite FM in ND, PB.
      assert (NM := ND). rewrite map_app in NM; cbn [map] in NM. apply NoDup_remove_2 in NM.
      assert (FR := free_in_some m m1 rs1 r rs2 l1 u l2 F1 R EU).
      assert (FR' : free_in m (rs1 ++ r :: rs2) p = if is_nil (l1 ++ l2) then Some (os_unmap m1 (r_start r), rs1 ++ rs2) else Some (m1, rs1 ++ with_units r (l1 ++ l2) :: rs2)).
      { rewrite <- E. apply FR; [| |exact C].
        - intro X; apply NM, in_or_app; left. rewrite map_app; apply in_or_app; left; exact X.
        - intros v IV X; apply NM, in_or_app; left. rewrite map_app; apply in_or_app; right. rewrite <- X. apply in_map, in_map; exact IV. }
      assert (FL : Permutation (filter (fun b => negb (b_addr b =? p)) l) ((flat_map blocks rs1 ++ map (blk r) l1) ++ map (blk r) l2 ++ flat_map blocks rs2)).
      { eapply Permutation_trans; [exact (perm_filter _ _ _ PB)|]. rewrite filter_mid; [apply Permutation_refl|exact ND|exact E]. }
      assert (KP : keeps m m1 (filter (fun b => negb (b_addr b =? p)) l)).
      { intros b a IB A. apply B1. apply (Permutation_in _ FL) in IB.
        assert (PW := inv_flat _ _ _ V). rewrite ER, FM in PW. pose proof (fop_mid bapart b _ _ _ PW bapart_sym IB) as AP.
        (* b is outside of the unit, not only of the block *)
        assert (OU : b_addr b + b_size b <= r_start r + a_off u \/ r_start r + a_off u + a_len u <= b_addr b).
        { clear AP. apply in_app_or in IB; destruct IB as [IB|IB]; apply in_app_or in IB; destruct IB as [IB|IB].
          - apply in_flat_map in IB; destruct IB as (r2 & J1 & J2). unfold blocks in J2; apply in_map_iff in J2; destruct J2 as (v & <- & J2).
            destruct (blk_within r2 v (proj1 (Forall_forall _ _) F1 r2 J1) J2) as (_ & (W1 & W2) & _).
            assert (MA := regs_apart _ _ _ V). rewrite ER, !map_app in MA; cbn [map] in MA. apply fop_app in MA; destruct MA as (MA & _).
            apply fop_app in MA; destruct MA as (_ & _ & MA). specialize (MA (reg_map r2) (reg_map r) (in_map _ _ _ J1) (or_introl eq_refl)).
            destruct (chain_units _ _ _ (ro_chain r R) u I2) as (X1 & X2 & X3). unfold mapart, apart, reg_map in MA; cbn [m_start m_len] in MA. lia.
          - apply in_map_iff in IB; destruct IB as (v & <- & J2). left.
            assert (J3 : In v (r_units r)) by (rewrite EU; apply in_or_app; auto).
            destruct (blk_within r v R J3) as (_ & _ & _ & (W1 & W2) & _).
            assert (CP := chain_pairs _ _ _ (ro_chain r R)). rewrite EU in CP. apply fop_app in CP; destruct CP as (_ & _ & CP).
            specialize (CP v u J2 (or_introl eq_refl)). cbn beta in CP. lia.
          - apply in_map_iff in IB; destruct IB as (v & <- & J2). right.
            assert (J3 : In v (r_units r)) by (rewrite EU; apply in_or_app; cbn; auto).
            destruct (blk_within r v R J3) as (_ & _ & _ & (W1 & W2) & _).
            assert (CP := chain_pairs _ _ _ (ro_chain r R)). rewrite EU in CP. apply fop_app in CP; destruct CP as (_ & CP & _).
            inversion CP as [|? ? CP1 CP2]; subst. pose proof (proj1 (Forall_forall _ _) CP1 v J2) as X. cbn beta in X. lia.
          - apply in_flat_map in IB; destruct IB as (r2 & J1 & J2). unfold blocks in J2; apply in_map_iff in J2; destruct J2 as (v & <- & J2).
            inversion F2 as [|? ? F3 F4]; subst.
            destruct (blk_within r2 v (proj1 (Forall_forall _ _) F4 r2 J1) J2) as (_ & (W1 & W2) & _).
            assert (MA := regs_apart _ _ _ V). rewrite ER, !map_app in MA; cbn [map] in MA. apply fop_app in MA; destruct MA as (MA & _).
            apply fop_app in MA; destruct MA as (_ & MA & _). inversion MA as [|? ? MA1 MA2]; subst.
            pose proof (proj1 (Forall_forall _ _) MA1 (reg_map r2) (in_map _ _ _ J1)) as X.
            destruct (chain_units _ _ _ (ro_chain r R) u I2) as (X1 & X2 & X3). unfold mapart, apart, reg_map in X; cbn [m_start m_len] in X. lia. }
        lia. }
      assert (PM := i_maps _ _ _ V). rewrite ER in PM. assert (NS := inv_starts _ _ _ V). rewrite ER in NS.
      assert (IR := i_regs _ _ _ V). rewrite ER in IR. apply Forall_app in IR; destruct IR as (IR1 & IR2). inversion IR2 as [|? ? IR3 IR4]; subst.
      assert (NOT : ~ In (b_addr (blk r u)) (map b_addr l) -> False).
      { intro X; apply X. apply (Permutation_in _ (Permutation_map b_addr (Permutation_sym PB))). rewrite map_app; apply in_or_app; right; left; reflexivity. }
      destruct (is_nil (l1 ++ l2)) eqn:NIL.
      + exists (os_unmap m1 (r_start r)), (rs1 ++ rs2). split; [exact FR'|]. split; [|split; [exact KP|split; [intro X; exfalso; exact (NOT X)|]]].
        2:{ intros mp IM. unfold os_unmap in IM; cbn [maps] in IM. apply filter_In in IM. rewrite M1 in IM. exact (proj1 IM). }
        destruct l1; [|discriminate NIL]. destruct l2; [|discriminate NIL]. cbn [map app] in FL. rewrite app_nil_r in FL.
        assert (PM' : Permutation (maps (os_unmap m1 (r_start r))) (map reg_map (rs1 ++ rs2) ++ foreign))
          by (apply unmap_maps; [rewrite M1; exact PM|exact NS]).
        constructor; cbn [p_align p_page p_regs]; [exact (i_align _ _ _ V)|exact (i_page _ _ _ V)|apply Forall_app; auto|exact PM'| | |].
        * apply Forall_forall; intros mp IM. unfold os_unmap in IM; cbn [maps] in IM. apply filter_In in IM. rewrite M1 in IM.
          exact (proj1 (Forall_forall _ _) (i_len _ _ _ V) mp (proj1 IM)).
        * apply (fop_perm mapart _ _ mapart_sym (Permutation_sym PM')).
          assert (MA := regs_apart _ _ _ V). rewrite ER in MA. rewrite !map_app in *; cbn [map] in MA. rewrite <- app_assoc in *. cbn [app] in MA.
          apply fop_app in MA; destruct MA as (A1 & A2 & A3). inversion A2 as [|? ? A4 A5]; subst.
          apply fop_app; split; [exact A1|split; [exact A5|]]. intros x y X Y; apply A3; [exact X|right; exact Y].
        * rewrite flat_map_app. exact FL.
      + exists m1, (rs1 ++ with_units r (l1 ++ l2) :: rs2). split; [exact FR'|].
        split; [|split; [exact KP|split; [intro X; exfalso; exact (NOT X)|rewrite M1; auto]]].
        assert (RM : map reg_map (rs1 ++ with_units r (l1 ++ l2) :: rs2) = map reg_map (rs1 ++ r :: rs2)) by (rewrite !map_app; reflexivity).
        constructor; cbn [p_align p_page p_regs]; [exact (i_align _ _ _ V)|exact (i_page _ _ _ V)| | | | |].
        * apply Forall_app; split; [exact IR1|constructor; [|exact IR4]]. destruct IR3 as (X1 & X2 & X3). split; [|split].
          -- destruct R as [Rs Rp Rz Rt Ra Rc]. constructor; try assumption. cbn [with_units r_units]. rewrite EU in Rc.
             exact (chain_remove r (l1 ++ l2) l1 u l2 0 Rc).
          -- cbn [with_units r_units]. intro X; rewrite X in NIL; discriminate NIL.
          -- cbn [with_units r_units r_iso]. intro IS. specialize (X3 IS). rewrite EU, app_length in X3; cbn [length] in X3.
             destruct l1, l2; cbn [length] in X3; try lia. discriminate NIL.
        * rewrite RM, M1. exact PM.
        * rewrite M1; exact (i_len _ _ _ V).
        * rewrite M1; exact (i_apart _ _ _ V).
        * rewrite flat_map_app. cbn [flat_map]. unfold blocks at 2. cbn [with_units r_units].
          rewrite (map_ext (blk (with_units r (l1 ++ l2))) (blk r)) by reflexivity. rewrite map_app, <- !app_assoc. rewrite <- !app_assoc in FL. exact FL.
    - exists m, (p_regs pa). split; [exact (free_in_none _ _ _ F I)|].
      assert (NL : ~ In p (map b_addr l)) by (intro X; apply I; apply (Permutation_in _ (Permutation_map b_addr PB)); exact X).
      rewrite filter_id.
      + split; [destruct V; constructor; assumption|split; [intros b a _ _; reflexivity|split; auto]].
      + intros b IB. destruct (Z.eqb_spec (b_addr b) p) as [X|X]; [|reflexivity]. exfalso; apply NL. rewrite <- X. apply in_map; exact IB.
  Qed.

  (** SetRE, SetRW *)
  Lemma set_in_cases m rs p re :
    (set_in m rs p re = (m, rs) /\ forall r, In r rs -> contains r p = false) \/
    exists rs1 r rs2, rs = rs1 ++ r :: rs2 /\
      set_in m rs p re = (os_prot m (r_start r) (negb re), rs1 ++ with_re r re :: rs2) /\ contains r p = true.
  Proof.
    induction rs as [|r rs IH]; cbn [set_in]; [left; split; [reflexivity|intros r []]|].
    destruct (contains r p) eqn:C; [right; exists [], r, rs; repeat split; exact C|].
    destruct IH as [(E & N)|(rs1 & x & rs2 & E1 & E2 & E3)].
    - left; rewrite E; split; [reflexivity|]. intros y [<-|I]; auto.
    - right. exists (r :: rs1), x, rs2. rewrite E2. split; [cbn [app]; congruence|split; [reflexivity|exact E3]].
  Qed.
  Lemma set_ok m pa l p re : inv m pa l ->
    inv (fst (set_in m (p_regs pa) p re)) (PA (p_align pa) (p_page pa) (snd (set_in m (p_regs pa) p re))) l /\
    bytes (fst (set_in m (p_regs pa) p re)) = bytes m.
  Proof.
    intro V. destruct (set_in_cases m (p_regs pa) p re) as [(E & _)|(rs1 & r & rs2 & E1 & E2 & _)].
    - rewrite E; cbn [fst snd]. split; [destruct V; constructor; assumption|reflexivity].
    - rewrite E2; cbn [fst snd]. split; [|reflexivity].
      assert (PM := i_maps _ _ _ V). assert (NS := inv_starts _ _ _ V). assert (IR := i_regs _ _ _ V). assert (PB := i_blocks _ _ _ V).
      rewrite E1 in PM, NS, IR, PB. apply Forall_app in IR; destruct IR as (IR1 & IR2). inversion IR2 as [|? ? IR3 IR4]; subst.
      constructor; cbn [p_align p_page p_regs]; [exact (i_align _ _ _ V)|exact (i_page _ _ _ V)| | | | |].
      + apply Forall_app; split; [exact IR1|constructor; [|exact IR4]]. destruct IR3 as (X1 & X2 & X3). split; [|split; [exact X2|exact X3]].
        destruct X1 as [Rs Rp Rz Rt Ra Rc]. constructor; try assumption. cbn [with_re r_units].
        assert (CE : forall us lo, chain r lo us -> chain (with_re r re) lo us).
        { induction us as [|u us IH]; intros lo C; cbn [chain] in *; [exact C|]. destruct C as (A & B & C). split; [exact A|split; [exact B|exact (IH _ C)]]. }
        apply CE; exact Rc.
      + pose proof (prot_maps m rs1 r rs2 (negb re) PM NS) as X. rewrite negb_involutive in X. exact X.
      + apply Forall_forall; intros mp IM. unfold os_prot in IM; cbn [maps] in IM. apply in_map_iff in IM; destruct IM as (x & EX & IX).
        pose proof (proj1 (Forall_forall _ _) (i_len _ _ _ V) x IX) as Y. destruct (m_start x =? r_start r); subst mp; exact Y.
      + apply (same_ranges (maps m)); [symmetry; apply prot_ranges|exact (i_apart _ _ _ V)].
      + rewrite flat_map_app in *; cbn [flat_map] in *. exact PB.
  Qed.

  Lemma set_writable m pa l b re : inv m pa l -> In b l ->
    forall x, b_addr b <= x < b_addr b + b_size b -> writable (fst (set_in m (p_regs pa) (b_addr b) re)) x = negb re.
  Proof.
    intros V I x X. pose proof (set_ok m pa l (b_addr b) re V) as (V' & _).
    apply (Permutation_in _ (i_blocks _ _ _ V)) in I. apply in_flat_map in I; destruct I as (r0 & I1 & I2).
    unfold blocks in I2; apply in_map_iff in I2; destruct I2 as (u & <- & I2).
    destruct (inv_reg _ _ _ _ V I1) as (R0 & _ & _ & K0). destruct (blk_within r0 u R0 I2) as (S & (W1 & W2) & _).
    assert (C0 : contains r0 (b_addr (blk r0 u)) = true).
    { unfold contains. rewrite wsm by (destruct R0; lia). apply andb_true_iff; split; [apply Z.leb_le|apply Z.ltb_lt]; lia. }
    destruct (set_in_cases m (p_regs pa) (b_addr (blk r0 u)) re) as [(_ & N)|(rs1 & r & rs2 & E1 & E2 & E3)]; [rewrite (N r0 I1) in C0; discriminate|].
    rewrite E2 in V' |- *; cbn [fst snd] in *.
    assert (I1' : In r (p_regs pa)) by (rewrite E1; apply in_or_app; right; left; reflexivity).
    destruct (inv_reg _ _ _ _ V I1') as (R & _ & _ & K).
    assert (IN : r_start r <= b_addr (blk r0 u) < r_start r + r_size r).
    { unfold contains in E3. rewrite wsm in E3 by (destruct R; lia). apply andb_true_iff in E3; destruct E3 as (Q1 & Q2).
      apply Z.leb_le in Q1; apply Z.ltb_lt in Q2; lia. }
    assert (PA := i_apart _ _ _ V).
    assert (EQ : reg_map r = reg_map r0).
    { apply in_split in K; destruct K as (y & z & E). rewrite E in PA, K0. apply in_app_or in K0. destruct K0 as [J|[J|J]]; [|exact J|];
        exfalso; (assert (Q : mapart (reg_map r) (reg_map r0)) by (apply (fop_mid mapart (reg_map r0) y (reg_map r) z PA mapart_sym); apply in_or_app; auto);
        unfold mapart, apart, reg_map in Q; cbn [m_start m_len] in Q; lia). }
    assert (IX : r_start r <= x < r_start r + r_size r).
    { assert (r_start r = r_start r0 /\ r_size r = r_size r0) as (-> & ->) by (unfold reg_map in EQ; split; congruence). lia. }
    assert (I3 : In (with_re r re) (p_regs (PageModel.PA (p_align pa) (p_page pa) (rs1 ++ with_re r re :: rs2))))
      by (cbn [p_regs]; apply in_or_app; right; left; reflexivity).
    destruct re; cbn [negb].
    - destruct (writable (os_prot m (r_start r) false) x) eqn:WR; [exfalso|reflexivity].
      unfold writable in WR. apply existsb_exists in WR; destruct WR as (mp & IM & Q). apply andb_true_iff in Q; destruct Q as (Q1 & Q2).
      unfold inside in Q1. apply andb_true_iff in Q1; destruct Q1 as (Q3 & Q4). apply Z.leb_le in Q3; apply Z.ltb_lt in Q4.
      destruct (inv_reg _ _ _ _ V' I3) as (_ & _ & _ & K3). assert (PA' := i_apart _ _ _ V').
      assert (mp = reg_map (with_re r true)).
      { apply in_split in K3; destruct K3 as (y & z & E). cbn [negb] in *. rewrite E in PA', IM. apply in_app_or in IM. destruct IM as [J|[J|J]]; [|symmetry; exact J|];
        exfalso; (assert (Q : mapart (reg_map (with_re r true)) mp) by (apply (fop_mid mapart mp y (reg_map (with_re r true)) z PA' mapart_sym); apply in_or_app; auto);
        unfold mapart, apart, reg_map in Q; cbn [m_start m_len with_re r_start r_size] in Q; lia). }
      subst mp; discriminate Q2.
    - apply (inv_writable _ _ _ (with_re r false) x V' I3 eq_refl). exact IX.
  Qed.

  (** Alloc *)
  Lemma alloc_in_spec rs n rs' a : alloc_in rs n = Some (rs', a) ->
    exists rs1 r rs2 r', rs = rs1 ++ r :: rs2 /\ rs' = rs1 ++ r' :: rs2 /\ try_alloc r n = Some (r', a).
  Proof.
    revert rs'; induction rs as [|r rs IH]; intros rs' H; cbn [alloc_in] in H; [discriminate|].
    destruct (try_alloc r n) as [[r' a']|] eqn:T.
    - injection H as <- <-. exists [], r, rs, r'; auto.
    - destruct (alloc_in rs n) as [[rs0 a']|] eqn:E; [|discriminate]. injection H as <- <-.
      destruct (IH rs0 eq_refl) as (rs1 & x & rs2 & x' & -> & -> & Q). exists (r :: rs1), x, rs2, x'; auto.
  Qed.

  Lemma region_size_spec n : 0 < n <= 2 ^ 62 -> round_up page n (region_size page n) /\ 0 < region_size page n.
  Proof.
    intro H. unfold region_size, round_up. pose proof (Z.mod_pos_bound n page ltac:(lia)) as B. pose proof (Z.div_mod n page ltac:(lia)) as D.
    assert (E : n - n mod page = page * (n / page)) by lia.
    destruct (Z.ltb_spec (n - n mod page) n) as [L|L].
    - rewrite wsm by lia. split; [|lia]. split; [lia|]. exists (n / page + 1). lia.
    - split; [|lia]. split; [lia|]. exists (n / page). lia.
  Qed.

  Lemma alloc_ok m pa l n iso ans : inv m pa l -> 0 < n <= 2 ^ 62 -> os_answer page m n ans ->
    exists m' pa' a, alloc_priv m pa n iso ans = (m', pa', a) /\ inv m' pa' (ledger l (PAlloc n iso ans) a) /\ keeps m m' l /\
      (a = 0 -> ans = 0 /\ m' = m /\ pa' = pa).
  Proof.
    intros V H OS. unfold alloc_priv.
    destruct (if iso then None else alloc_in (p_regs pa) n) as [[rs a]|] eqn:E.
    - destruct iso; [discriminate|]. destruct (alloc_in_spec _ _ _ _ E) as (rs1 & r & rs2 & r' & E1 & E2 & T).
      assert (IR : In r (p_regs pa)) by (rewrite E1; apply in_or_app; right; left; reflexivity).
      destruct (inv_reg _ _ _ _ V IR) as (R & NE & IS & _).
      destruct (try_alloc_spec r n r' a R H T) as (T1 & us & T2 & T3 & T4 & T5 & T6).
      assert (NI : r_iso r = false) by (destruct (r_iso r); [exfalso; apply NE, T1; reflexivity|reflexivity]).
      assert (AZ : a <> 0).
      { assert (IB : In (Block a n (r_iso r)) (blocks r')) by (apply (Permutation_in _ (Permutation_sym T6)); left; reflexivity).
        unfold blocks in IB; apply in_map_iff in IB; destruct IB as (u & EB & IU). destruct (blk_within r' u T3 IU) as (_ & (W & _) & _).
        rewrite EB in W; cbn [b_addr] in W. pose proof (ro_start _ T3). lia. }
      exists m, (PA (p_align pa) (p_page pa) rs), a. split; [reflexivity|]. split; [|split; [intros b x _ _; reflexivity|intro; contradiction]].
      cbn [ledger]. destruct (Z.eqb_spec a 0); [contradiction|].
      assert (RM : map reg_map (rs1 ++ r' :: rs2) = map reg_map (rs1 ++ r :: rs2)) by (rewrite !map_app; subst r'; reflexivity).
      assert (IRS := i_regs _ _ _ V). rewrite E1 in IRS. apply Forall_app in IRS; destruct IRS as (IR1 & IR2). inversion IR2 as [|? ? IR3 IR4]; subst rs x l0.
      constructor; cbn [p_align p_page p_regs]; [exact (i_align _ _ _ V)|exact (i_page _ _ _ V)| | | | |].
      + apply Forall_app; split; [exact IR1|constructor; [|exact IR4]]. split; [exact T3|]. subst r'; cbn [with_units r_units r_iso].
        split; [exact T4|]. intro X; congruence.
      + rewrite RM, <- E1. exact (i_maps _ _ _ V).
      + exact (i_len _ _ _ V).
      + exact (i_apart _ _ _ V).
      + pose proof (i_blocks _ _ _ V) as PB. rewrite E1 in PB. rewrite flat_map_app in *; cbn [flat_map] in *.
        rewrite NI in T6. apply Permutation_trans with (Block a n false :: flat_map blocks rs1 ++ blocks r ++ flat_map blocks rs2);
          [constructor; exact PB|].
        apply Permutation_trans with (flat_map blocks rs1 ++ (Block a n false :: blocks r) ++ flat_map blocks rs2).
        * cbn [app]. apply Permutation_middle.
        * apply Permutation_app_head, Permutation_app_tail, Permutation_sym. exact T6.
    - clear E. unfold add_region. destruct (Z.eqb_spec ans 0) as [->|NZ].
      + cbn [negb]. exists (os_map m 0 (region_size (p_page pa) n)), pa, 0. unfold os_map; cbn [Z.eqb orb].
        split; [reflexivity|split; [exact V|split; [intros b x _ _; reflexivity|auto]]].
      + destruct OS as [X|(O1 & O2 & O3)]; [contradiction|]. rewrite (i_page _ _ _ V), (i_align _ _ _ V).
        destruct (region_size_spec n H) as (RU & SZ). set (sz := region_size page n) in *. destruct (O3 sz RU) as (O4 & O5).
        assert (MF : (ans =? 0) || (ans =? map_failed) = false).
        { destruct (Z.eqb_spec ans 0); [contradiction|]. destruct (Z.eqb_spec ans map_failed) as [X|X]; [unfold map_failed in X; lia|reflexivity]. }
        unfold os_map. rewrite MF. unfold set_mode. cbn [negb p_regs r_start]. rewrite last_last, removelast_last.
        set (r := with_re (Reg ans sz iso align [] false) false).
        assert (R : reg_ok r) by (constructor; cbn; auto; lia).
        destruct (try_alloc_fresh r n R eq_refl ltac:(cbn; destruct RU; lia) ltac:(lia)) as (r' & T). rewrite T.
        destruct (try_alloc_spec r n r' _ R H T) as (T1 & us & T2 & T3 & T4 & T5 & T6).
        assert (SAME : maps (os_prot (Mach (maps m ++ [Map ans sz true]) (fun a => if (ans <=? a) && (a <? ans + sz) then 0 else bytes m a)) ans true)
                       = maps m ++ [Map ans sz true]).
        { unfold os_prot; cbn [maps]. apply map_id_in. intros mp I. destruct (Z.eqb_spec (m_start mp) ans) as [X|X]; [|reflexivity].
          apply in_app_or in I; destruct I as [I|[<-|[]]]; [|reflexivity]. exfalso.
          pose proof (O5 mp I) as AP. pose proof (proj1 (Forall_forall _ _) (i_len _ _ _ V) mp I) as LN. unfold apart in AP. cbn beta in LN. lia. }
        eexists; eexists; exists ans. split; [reflexivity|]. split; [|split; [|intro; contradiction]].
        * cbn [ledger p_regs p_align p_page r_start r with_re]. destruct (Z.eqb_spec ans 0); [contradiction|].
          constructor; cbn [p_align p_page p_regs]; [reflexivity|reflexivity| | | | |].
          -- apply Forall_app; split; [exact (i_regs _ _ _ V)|constructor; [|constructor]]. split; [exact T3|]. subst r'; cbn [with_units r_units r_iso].
             split; [exact T4|intros _; exact (T5 eq_refl)].
          -- rewrite SAME, map_app. cbn [map]. rewrite <- app_assoc. cbn [app].
             replace (reg_map r') with (Map ans sz true) by (subst r'; reflexivity).
             apply Permutation_trans with (Map ans sz true :: maps m); [apply Permutation_sym, Permutation_cons_append|].
             apply Permutation_trans with (Map ans sz true :: map reg_map (p_regs pa) ++ foreign); [constructor; exact (i_maps _ _ _ V)|].
             apply Permutation_middle.
          -- rewrite SAME. apply Forall_app; split; [exact (i_len _ _ _ V)|constructor; [exact SZ|constructor]].
          -- rewrite SAME. apply fop_app; split; [exact (i_apart _ _ _ V)|split; [repeat constructor|]].
             intros x y I [<-|[]]. unfold mapart; cbn [m_start m_len]. apply apart_sym, O5; exact I.
          -- rewrite flat_map_app; cbn [flat_map]. rewrite app_nil_r.
             apply Permutation_trans with (Block ans n iso :: flat_map blocks (p_regs pa)); [constructor; exact (i_blocks _ _ _ V)|].
             apply Permutation_trans with (flat_map blocks (p_regs pa) ++ [Block ans n iso]); [apply Permutation_cons_append|].
             apply Permutation_app_head, Permutation_sym. exact T6.
        * intros b x IB X. cbn [os_prot bytes].
          assert (IB' := Permutation_in _ (i_blocks _ _ _ V) IB). apply in_flat_map in IB'; destruct IB' as (q & J1 & J2).
          destruct (inv_reg _ _ _ _ V J1) as (RQ & _ & _ & JM). unfold blocks in J2; apply in_map_iff in J2; destruct J2 as (u & <- & J2).
          destruct (blk_within q u RQ J2) as (_ & (W1 & W2) & _). pose proof (O5 _ JM) as AP. unfold apart, reg_map in AP; cbn [m_start m_len] in AP.
          destruct (Z.leb_spec ans x), (Z.ltb_spec x (ans + sz)); cbn [andb]; try reflexivity. lia.
  Qed.

  Lemma pstep_ok m pa l o : inv m pa l -> allowed page m o ->
    exists m' pa' r, pstep m pa o = Some (m', pa', r) /\ inv m' pa' (ledger l o r).
  Proof.
    intros V A. destruct o as [n iso ans|p|p re|f]; cbn [pstep allowed ledger] in *.
    - destruct (alloc_ok m pa l n iso ans V (proj1 A) (proj2 A)) as (m' & pa' & a & E & V' & _). rewrite E. eauto.
    - destruct (free_ok m pa l p V) as (m' & rs & E & V' & _). rewrite E. eauto.
    - destruct (set_ok m pa l p re V) as (V' & _). destruct (set_in m (p_regs pa) p re) as [m' rs]. cbn [fst snd] in V'. eauto.
    - do 3 eexists; split; [reflexivity|]. destruct V; constructor; assumption.
  Qed.

  (** the invariant gives the promise *)
  Lemma inv_good m pa l : inv m pa l -> good align foreign m l.
  Proof.
    intro V. assert (PB := i_blocks _ _ _ V). assert (F := inv_regok _ _ _ V).
    assert (BK : forall b, In b l -> exists r u, In r (p_regs pa) /\ In u (r_units r) /\ b = blk r u).
    { intros b I. apply (Permutation_in _ PB) in I. apply in_flat_map in I; destruct I as (r & I1 & I2). unfold blocks in I2.
      apply in_map_iff in I2; destruct I2 as (u & <- & I2). eauto. }
    assert (NF : forall r, In r (p_regs pa) -> ~ In (reg_map r) foreign).
    { intros r I J. assert (N := inv_starts _ _ _ V). rewrite map_app in N.
      apply (in_map m_start) in J. apply in_split in I; destruct I as (a & b & E). rewrite E, map_app in N; cbn [map] in N. rewrite map_app in N; cbn [map] in N.
      rewrite <- app_assoc in N; cbn [app] in N. apply NoDup_remove_2 in N. apply N. apply in_or_app; right. apply in_or_app; right. exact J. }
    assert (SAME : forall r mp b, In r (p_regs pa) -> In mp (maps m) -> 0 < b_size b -> within (b_addr b) (b_size b) (r_start r) (r_size r) ->
                   within (b_addr b) (b_size b) (m_start mp) (m_len mp) -> mp = reg_map r).
    { intros r mp b I J S W1 W2. destruct (inv_reg _ _ _ _ V I) as (_ & _ & _ & K). assert (P := i_apart _ _ _ V).
      apply in_split in J; destruct J as (x & y & E). rewrite E in P, K. apply in_app_or in K. destruct K as [K|[K|K]]; [|exact K|].
      - exfalso. pose proof (fop_mid mapart (reg_map r) x mp y P mapart_sym (in_or_app _ _ _ (or_introl K))) as Q.
        unfold mapart, apart, within, reg_map in *; cbn [m_start m_len] in *; lia.
      - exfalso. pose proof (fop_mid mapart (reg_map r) x mp y P mapart_sym (in_or_app _ _ _ (or_intror K))) as Q.
        unfold mapart, apart, within, reg_map in *; cbn [m_start m_len] in *; lia. }
    constructor.
    - intros b I. destruct (BK b I) as (r & u & I1 & I2 & ->). destruct (inv_reg _ _ _ _ V I1) as (R & _ & _ & K).
      exists (reg_map r); split; [exact K|split; [exact (NF r I1)|]]. apply (blk_within r u R I2).
    - intros b I. destruct (BK b I) as (r & u & I1 & I2 & ->). assert (R := proj1 (Forall_forall _ _) F r I1).
      destruct (blk_within r u R I2) as (S & (W1 & W2) & D & _). split; [exact D|]. pose proof (ro_start _ R). lia.
    - apply (fop_perm bapart _ _ bapart_sym (Permutation_sym PB)). exact (inv_flat _ _ _ V).
    - intros mp I. apply (Permutation_in _ (i_maps _ _ _ V)) in I. apply in_app_or in I; destruct I as [I|I]; [right|left; exact I].
      apply in_map_iff in I; destruct I as (r & <- & I). destruct (inv_reg _ _ _ _ V I) as (R & NE & _ & _).
      destruct (r_units r) as [|u us] eqn:EU; [contradiction|]. assert (IU : In u (r_units r)) by (rewrite EU; left; reflexivity).
      exists (blk r u); split; [|apply (blk_within r u R IU)]. apply (Permutation_in _ (Permutation_sym PB)). apply in_flat_map.
      exists r; split; [exact I|]. unfold blocks; apply in_map; exact IU.
    - intros mp I. apply (Permutation_in _ (Permutation_sym (i_maps _ _ _ V))). apply in_or_app; right; exact I.
    - exact (i_apart _ _ _ V).
    - intros a b mp Ia Ib IS Im Wa Wb. destruct (BK a Ia) as (r & u & I1 & I2 & ->). destruct (BK b Ib) as (r2 & u2 & J1 & J2 & ->).
      assert (R := proj1 (Forall_forall _ _) F r I1). assert (R2 := proj1 (Forall_forall _ _) F r2 J1).
      destruct (blk_within r u R I2) as (S1 & W1 & _). destruct (blk_within r2 u2 R2 J2) as (S2 & W2 & _).
      pose proof (SAME r mp _ I1 Im S1 W1 Wa) as E1. pose proof (SAME r2 mp _ J1 Im S2 W2 Wb) as E2. rewrite E1 in E2.
      assert (ER : r = r2).
      { assert (N := inv_starts _ _ _ V). rewrite map_app in N.
        assert (INJ : forall l (x y : region), NoDup (map m_start (map reg_map l)) -> In x l -> In y l -> reg_map x = reg_map y -> x = y).
        { clear. induction l as [|c l IH]; intros x y N I J E; [destruct I|]. cbn [map] in N; inversion N as [|? ? N1 N2]; subst.
          destruct I as [->|I], J as [->|J]; [reflexivity| | |exact (IH x y N2 I J E)].
          - exfalso; apply N1. change (In (m_start (reg_map x)) (map m_start (map reg_map l))). rewrite E. apply in_map, in_map; exact J.
          - exfalso; apply N1. change (In (m_start (reg_map y)) (map m_start (map reg_map l))). rewrite <- E. apply in_map, in_map; exact I. }
        apply (INJ (p_regs pa)); auto. clear - N. revert N. generalize (map m_start (map reg_map (p_regs pa))) as x, (map m_start foreign) as y.
        induction x as [|a x IH]; intros y N; cbn [app] in *; [constructor|]. inversion N as [|? ? N1 N2]; subst. constructor; [|exact (IH _ N2)].
        intro I; apply N1, in_or_app; auto. }
      subst r2. destruct (inv_reg _ _ _ _ V I1) as (_ & _ & L1 & _). cbn [blk b_iso] in IS. specialize (L1 IS).
      destruct (r_units r) as [|x [|y us]]; cbn [length] in L1; try lia. destruct I2 as [<-|[]], J2 as [<-|[]]; reflexivity.
  Qed.
End Region.
