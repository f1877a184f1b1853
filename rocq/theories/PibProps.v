(** C84: prototypes described call by call. *)
From Coq Require Import List ZArith Bool Lia.
From Verif Require Import ListModel VecModel VecProofs ProtoModel PibModel PibSpec.
Import ListNotations.
Local Open Scope Z_scope.

Lemma flag_bits d i : 0 <= i -> Z.testbit (with_flags d) i =
  Z.testbit (ds_flags d) i || ((i =? 2) && negb (ds_dtor d =? 0)) || ((i =? 3) && negb (ds_normal d =? 0)) ||
  ((i =? 4) && negb (ds_assign d =? 0)) || ((i =? 5) && negb (ds_copy d =? 0)).
Proof.
  intros I.
  assert (B : forall n, 0 <= n -> Z.testbit (2 ^ n) i = (i =? n)).
  { intros n N. rewrite Z.pow2_bits_eqb by exact N. apply Z.eqb_sym. }
  pose proof (B 2 ltac:(lia)) as B2. pose proof (B 3 ltac:(lia)) as B3. pose proof (B 4 ltac:(lia)) as B4. pose proof (B 5 ltac:(lia)) as B5.
  change (2 ^ 2) with PassFlag_ODtor in B2. change (2 ^ 3) with PassFlag_OCtor in B3.
  change (2 ^ 4) with PassFlag_AssignOp in B4. change (2 ^ 5) with PassFlag_CCtor in B5. unfold with_flags.
  destruct (ds_normal d =? 0), (ds_copy d =? 0), (ds_dtor d =? 0), (ds_assign d =? 0); cbn [negb];
    rewrite ?Z.lor_spec, ?B2, ?B3, ?B4, ?B5; rewrite ?andb_false_r, ?andb_true_r, ?orb_false_r;
    destruct (Z.testbit (ds_flags d) i), (i =? 2), (i =? 3), (i =? 4), (i =? 5); reflexivity.
Qed.

Lemma describes_of d : describes (mk_pass (rp_size (pass_of d)) (rp_type (pass_of d)) (rp_flags (pass_of d)) (pass2_of d)) d.
Proof. constructor; try reflexivity. intros i I. apply flag_bits. exact I. Qed.

Section Built.
Variable alloc1 : @vheap rawpass -> nat.
Variable alloc2 : @vheap rawpass2 -> nat.
Hypothesis A1 : allocator alloc1.
Hypothesis A2 : allocator alloc2.

Record BInv (b : pib) (cc : Z) (os : list bop) : Prop := {
  bi_1 : okv (h1 b) (v1 b) (RawPass 1 0 0 :: map pass_of (params_of os));
  bi_2 : okv (h2 b) (v2 b) (RawPass2 0 0 0 0 :: map pass2_of (params_of os));
  bi_n : num b = Z.of_nat (length (params_of os));
  bi_r : ret b = pass_of (ret_of os);
  bi_r2 : ret2 b = pass2_of (ret_of os);
  bi_c : conv b = cc }.

Lemma okv_none {T} : okv (@no_heap T) vec0 [].
Proof.
  split; [|split; [intros b _; reflexivity|reflexivity]]. constructor; cbn; try reflexivity; try lia.
Qed.

Lemma create_ok cc : exists b, create alloc1 alloc2 cc = Some b /\ BInv b cc [].
Proof.
  unfold create, push_both. cbn [h1 v1 h2 v2].
  destruct (push_ok alloc1 A1 no_heap vec0 [] (Val (RawPass 1 0 0)) (RawPass 1 0 0) okv_none eq_refl) as (g1 & w1 & E1 & O1 & _).
  destruct (push_ok alloc2 A2 no_heap vec0 [] (Val (RawPass2 0 0 0 0)) (RawPass2 0 0 0 0) okv_none eq_refl) as (g2 & w2 & E2 & O2 & _).
  rewrite E1. cbv beta iota. rewrite E2. cbv beta iota. eexists. split; [reflexivity|]. constructor; cbn [h1 v1 h2 v2 num ret ret2 conv params_of map length]; try assumption; reflexivity.
Qed.

Lemma params_app os o : params_of (os ++ [o]) = params_of os ++ match o with Param d => [d] | _ => [] end.
Proof.
  induction os as [|x r IH]; [destruct o; reflexivity|]. cbn [app params_of]. destruct x; rewrite IH; reflexivity.
Qed.
Lemma ret_app os o : ret_of (os ++ [o]) = match o with SetRet d => d | _ => ret_of os end.
Proof. unfold ret_of. rewrite fold_left_app. reflexivity. Qed.

Lemma bstep_ok b cc os o : BInv b cc os -> exists b', bstep alloc1 alloc2 b o = Some b' /\ BInv b' cc (os ++ [o]).
Proof.
  intros I. destruct o as [d|d|]; cbn [bstep].
  - eexists. split; [reflexivity|]. destruct I. constructor; cbn [h1 v1 h2 v2 num ret ret2 conv]; rewrite ?params_app, ?ret_app, ?app_nil_r; try assumption; reflexivity.
  - destruct I as [I1 I2 IN IR IR2 IC]. unfold push_both.
    destruct (push_ok alloc1 A1 (h1 b) (v1 b) _ (Val (pass_of d)) (pass_of d) I1 eq_refl) as (g1 & w1 & E1 & O1 & _).
    destruct (push_ok alloc2 A2 (h2 b) (v2 b) _ (Val (pass2_of d)) (pass2_of d) I2 eq_refl) as (g2 & w2 & E2 & O2 & _).
    rewrite E1. cbv beta iota. rewrite E2. cbv beta iota. eexists. split; [reflexivity|].
    constructor; cbn [h1 v1 h2 v2 num ret ret2 conv]; rewrite ?params_app, ?ret_app; try assumption.
    + rewrite map_app. exact O1.
    + rewrite map_app. exact O2.
    + rewrite app_length, IN. cbn [length]. lia.
  - destruct I as [I1 I2 IN IR IR2 IC].
    assert (U1 : m_used (v1 b) =? 0 = false). { destruct I1 as (G & _). rewrite (gd_used _ _ _ G). apply Z.eqb_neq. cbn [length]. lia. }
    assert (U2 : m_used (v2 b) =? 0 = false). { destruct I2 as (G & _). rewrite (gd_used _ _ _ G). apply Z.eqb_neq. cbn [length]. lia. }
    rewrite U1, U2. cbn [orb]. eexists. split; [reflexivity|].
    constructor; cbn [h1 v1 h2 v2 num ret ret2 conv]; rewrite ?params_app, ?ret_app, ?app_nil_r; assumption.
Qed.

Lemma brun_ok r : forall b cc os, BInv b cc os -> exists b', brun alloc1 alloc2 b r = Some b' /\ BInv b' cc (os ++ r).
Proof.
  induction r as [|o r IH]; intros b cc os I.
  - exists b. rewrite app_nil_r. split; [reflexivity|exact I].
  - destruct (bstep_ok b cc os o I) as (b1 & E & I1). cbn [brun]. rewrite E. cbv beta iota.
    destruct (IH b1 cc _ I1) as (b2 & E2 & I2). exists b2. rewrite <- app_assoc in I2. split; [exact E2|exact I2].
Qed.

Lemma read_ok {T} (h : @vheap T) v xs : okv h v xs -> forall n k, (k + n = length xs)%nat ->
  read_from h (m_data v) (Z.of_nat k) n = Some (skipn k xs).
Proof.
  intros O. induction n as [|n IH]; intros k L; cbn [read_from].
  - rewrite skipn_all2 by lia. reflexivity.
  - rewrite (rd_elem h v xs (Z.of_nat k) O), elem_nth.
    + destruct (nth_error xs k) as [x|] eqn:E; [|apply nth_error_None in E; lia].
      change (Z.of_nat k + 1) with (Z.succ (Z.of_nat k)). rewrite <- Nat2Z.inj_succ. rewrite (IH (S k)) by lia.
      f_equal. symmetry. clear - E. revert k E. induction xs as [|y ys IHx]; intros [|k] E; cbn in *; try discriminate.
      * congruence.
      * apply IHx. exact E.
    + destruct O as (G & _). rewrite (gd_used _ _ _ G). lia.
Qed.

Lemma fill_v2_map ds : forall x y, fill_v2 (x :: map pass_of ds) (y :: map pass2_of ds) 1 (length ds) =
  Some (map (fun d => mk_pass (rp_size (pass_of d)) (rp_type (pass_of d)) (rp_flags (pass_of d)) (pass2_of d)) ds).
Proof.
  intros x y.
  assert (G : forall post pre pre2, length pre = length pre2 ->
    fill_v2 (pre ++ map pass_of post) (pre2 ++ map pass2_of post) (length pre) (length post) =
    Some (map (fun d => mk_pass (rp_size (pass_of d)) (rp_type (pass_of d)) (rp_flags (pass_of d)) (pass2_of d)) post)).
  { induction post as [|d r IH]; intros pre pre2 L; [reflexivity|]. cbn [length fill_v2 map].
    rewrite nth_error_app2, Nat.sub_diag by lia. cbn [nth_error]. rewrite L at 1.
    rewrite nth_error_app2, Nat.sub_diag by lia. cbn [nth_error].
    replace (S (length pre)) with (length (pre ++ [pass_of d])) by (rewrite app_length; cbn; lia).
    replace (pre ++ pass_of d :: map pass_of r) with ((pre ++ [pass_of d]) ++ map pass_of r) by (rewrite <- app_assoc; reflexivity).
    replace (pre2 ++ pass2_of d :: map pass2_of r) with ((pre2 ++ [pass2_of d]) ++ map pass2_of r) by (rewrite <- app_assoc; reflexivity).
    rewrite IH by (rewrite !app_length; cbn; lia). reflexivity. }
  exact (G ds [x] [y] eq_refl).
Qed.

Definition converted (b : pib) : Prop := p1 b = m_data (v1 b) /\ p2 b = m_data (v2 b).

Lemma seen_ok b cc os : BInv b cc os -> converted b ->
  seen b = Some (RawProto (num b) (ret b) (RawPass 1 0 0 :: map pass_of (params_of os)) (conv b) (ret2 b)
                          (RawPass2 0 0 0 0 :: map pass2_of (params_of os))).
Proof.
  intros [I1 I2 IN IR IR2 IC] (P1 & P2). unfold seen. rewrite P1, P2, IN, Nat2Z.id.
  rewrite (read_ok _ _ _ I1 _ 0%nat) by (cbn [length]; rewrite map_length; lia). cbn [skipn].
  rewrite (read_ok _ _ _ I2 _ 0%nat) by (cbn [length]; rewrite map_length; lia). cbn. reflexivity.
Qed.

(** Whatever was called before, the pointer obtained last shows the convention, the last
    return type and all parameters in their order, and SourceHook reads them so. *)
Theorem C84_built : forall cc os, exists b b' raw pr,
  create alloc1 alloc2 cc = Some b /\ brun alloc1 alloc2 b (os ++ [Convert]) = Some b' /\
  seen b' = Some raw /\ fill (Some raw) = Some pr /\
  pr_version pr = 1 /\ pr_conv pr = cc /\ pr_num pr = Z.of_nat (length (params_of os)) /\
  describes (pr_ret pr) (ret_of os) /\ Forall2 describes (pr_params pr) (params_of os).
Proof.
  intros cc os. destruct (create_ok cc) as (b & E & I0). destruct (brun_ok os b cc [] I0) as (b1 & E1 & I1).
  destruct (bstep_ok b1 cc _ Convert I1) as (b2 & E2 & I2).
  assert (CV : converted b2).
  { cbn [bstep] in E2. destruct ((m_used (v1 b1) =? 0) || (m_used (v2 b1) =? 0)); [discriminate|]. injection E2 as <-. split; reflexivity. }
  assert (ER : brun alloc1 alloc2 b (os ++ [Convert]) = Some b2).
  { clear - E1 E2. revert b E1. induction os as [|o r IH]; intros b E1.
    - cbn [brun] in E1. injection E1 as ->. cbn [app brun]. rewrite E2. reflexivity.
    - cbn [app brun] in *. destruct (bstep alloc1 alloc2 b o) as [bb|]; [|discriminate]. cbn in *. apply IH. exact E1. }
  pose proof (seen_ok b2 cc _ I2 CV) as SN. destruct I2 as [O1 O2 IN IR IR2 IC]. cbn [app] in *.
  rewrite params_app, app_nil_r in *. rewrite ret_app in *.
  exists b, b2. do 2 eexists. split; [exact E|]. split; [exact ER|]. split; [exact SN|]. split.
  - unfold fill. cbn [raw_params nth_error rp_size]. cbn [Z.eqb Pos.eqb raw_num raw_params2]. rewrite IN.
    replace (Z.of_nat (length (params_of os)) <? 0) with false by (symmetry; apply Z.ltb_ge; lia).
    rewrite Nat2Z.id, fill_v2_map. reflexivity.
  - cbn [pr_version pr_conv pr_num pr_ret pr_params raw_conv raw_ret raw_ret2 raw_num]. split; [reflexivity|]. split; [exact IC|].
    split; [reflexivity|]. split.
    + rewrite IR, IR2. apply describes_of.
    + clear. induction (params_of os) as [|d r IH]; cbn [map]; constructor; [apply describes_of|exact IH].
Qed.
End Built.
Print Assumptions C84_built.

(** An allocator for the examples. *)
Definition ex_alloc {T} (h : @vheap T) : nat := S (limit h).
Lemma ex_allocator {T} : allocator (@ex_alloc T).
Proof. intros h B. split; [discriminate|]. apply B. unfold ex_alloc. lia. Qed.

Definition ex_d1 : desc := Desc 4 1 1 0 0 0 0.
Definition ex_d2 : desc := Desc 24 3 1 4096 4100 4104 0.
Definition ex_d3 : desc := Desc 8 2 2 0 0 0 0.
Definition after (os : list bop) : option pib :=
  match create ex_alloc ex_alloc 1 with Some b => brun ex_alloc ex_alloc b os | None => None end.
Example C84_example :
  match after [Param ex_d1; Convert; SetRet ex_d1; Param ex_d2; SetRet ex_d3; Param ex_d3; Convert] with
  | Some b => match seen b with Some r => fill (Some r) | None => None end
  | None => None
  end = Some (Proto 1 3 (PassInfo 8 2 2 0 0 0 0) [PassInfo 4 1 1 0 0 0 0; PassInfo 24 3 45 4096 4100 4104 0; PassInfo 8 2 2 0 0 0 0] 1).
Proof. vm_compute. reflexivity. Qed.

(** A pointer obtained before a call of AddParam that makes the vector grow is of no use
    any more: what it points to is freed. *)
Section Stale.
Context {T : Type}.
Variable alloc : @vheap T -> nat.
Hypothesis A : allocator alloc.

Lemma push_moves h v (xs : list T) x h' v' : okv h v xs -> push_vec alloc h v (Val x) = Some (h', v') ->
  m_size v <= m_used v + 1 -> m_data v' = alloc h.
Proof.
  intros O E L. unfold push_vec, grow_if_needed in E. rewrite Z.geb_leb in E.
  replace (m_size v <=? m_used v + 1) with true in E by (symmetry; apply Z.leb_le; exact L).
  unfold grow, new_arr in E.
  destruct (grow_size _ _ _) as [ns|]; [|discriminate]. cbv beta iota zeta in E.
  destruct (if (m_data v =? 0)%nat then _ else _) as [hh|]; [|discriminate]. cbv beta iota in E. cbn [get_src] in E.
  cbv beta iota in E. cbn [m_data] in E.
  destruct (wr _ _ _ _) as [h3|]; [|discriminate]. cbv beta iota in E. injection E as _ <-. reflexivity.
Qed.

Lemma push_frees h v (xs : list T) x h' v' : okv h v xs -> xs <> [] -> push_vec alloc h v (Val x) = Some (h', v') ->
  m_size v <= m_used v + 1 -> h' (m_data v) = None.
Proof.
  intros O NE E L. pose proof (push_moves h v xs x h' v' O E L) as M.
  destruct (push_ok alloc A h v xs (Val x) x O eq_refl) as (h2 & v2 & E2 & _ & F). rewrite E in E2. injection E2 as <- <-.
  destruct O as (G & B & N0). destruct (A h B) as (AN & AF).
  assert (ND : m_data v <> 0%nat).
  { intros Z0. pose proof (gd_null _ _ _ G Z0). pose proof (gd_cap _ _ _ G). pose proof (gd_used _ _ _ G). destruct xs; [contradiction|cbn [length] in *; lia]. }
  destruct (gd_blk _ _ _ G ND) as (bk & Eb & _). 
  destruct (h' (m_data v)) as [q|] eqn:Q; [|reflexivity]. exfalso.
  assert (NM : m_data v <> m_data v') by (rewrite M; congruence).
  destruct (fr_new _ _ _ _ F (m_data v) NM) as (_ & C); [congruence|]. apply C. reflexivity.
Qed.
End Stale.

Theorem C84_stale_refuted : forall alloc1 alloc2, allocator alloc1 -> allocator alloc2 ->
  forall cc os d b0 b b', create alloc1 alloc2 cc = Some b0 -> brun alloc1 alloc2 b0 (os ++ [Convert]) = Some b ->
  m_size (v1 b) <= m_used (v1 b) + 1 -> bstep alloc1 alloc2 b (Param d) = Some b' -> seen b' = None.
Proof.
  intros alloc1 alloc2 A1 A2 cc os d b0 b b' C R L S.
  destruct (create_ok alloc1 alloc2 A1 A2 cc) as (b00 & C' & I0). rewrite C in C'. injection C' as <-.
  destruct (brun_ok alloc1 alloc2 A1 A2 (os ++ [Convert]) b0 cc [] I0) as (b1 & R' & I1). rewrite R in R'. injection R' as <-.
  assert (P : p1 b = m_data (v1 b)).
  { clear - R. revert b0 R. induction os as [|o r IH]; intros b0 R; cbn [app brun] in R.
    - cbn [bstep] in R. destruct ((m_used (v1 b0) =? 0) || (m_used (v2 b0) =? 0)); [discriminate|]. injection R as <-. reflexivity.
    - destruct (bstep alloc1 alloc2 b0 o) as [x|]; [|discriminate]. exact (IH x R). }
  cbn [bstep] in S. unfold push_both in S.
  destruct (push_vec alloc1 (h1 b) (v1 b) (Val (pass_of d))) as [(g1, w1)|] eqn:E1; [|discriminate].
  destruct (push_vec alloc2 (h2 b) (v2 b) (Val (pass2_of d))) as [(g2, w2)|]; [|discriminate].
  injection S as <-. unfold seen. cbn [h1 h2 p1 p2 num read_from].
  assert (F : g1 (p1 b) = None). { rewrite P. apply (push_frees alloc1 A1 _ _ _ _ _ _ (bi_1 _ _ _ I1) ltac:(discriminate) E1 L). }
  unfold rd. rewrite F. reflexivity.
Qed.
Print Assumptions C84_stale_refuted.

(** So it is with the seventh parameter. *)
Example C84_stale_example :
  match after (repeat (Param ex_d1) 6 ++ [Convert]) with
  | Some b => m_size (v1 b) <= m_used (v1 b) + 1 /\ seen b <> None /\
      match bstep ex_alloc ex_alloc b (Param ex_d2) with Some b' => seen b' = None | None => False end
  | None => False
  end.
Proof. vm_compute. repeat split; discriminate. Qed.
