(** Proofs about trampolines. *)
From Coq Require Import List ZArith Bool Permutation Lia.
From Verif Require Import Base ListModel PageModel PageSpec PageProofs TrampModel TrampSpec.
Import ListNotations.
Local Open Scope Z_scope.

(** Numbers as bytes *)
Lemma le_length n x : length (le n x) = n.
Proof. revert x; induction n as [|n IH]; intro x; cbn [le length]; [reflexivity|]. rewrite IH; reflexivity. Qed.
Lemma le_range n x v : In v (le n x) -> 0 <= v < 256.
Proof.
  revert x; induction n as [|n IH]; intros x I; cbn [le] in I; [destruct I|]. destruct I as [<-|I]; [apply Z.mod_pos_bound; lia|exact (IH _ I)].
Qed.

Definition holds (b : Z -> Z) (a : Z) (l : list Z) : Prop := forall i, (i < length l)%nat -> b (a + Z.of_nat i) = nth i l 0.
Lemma holds_cons b a v l : holds b a (v :: l) <-> b a = v /\ holds b (a + 1) l.
Proof.
  split.
  - intro H. split; [specialize (H O ltac:(cbn [length]; lia)); rewrite Z.add_0_r in H; exact H|].
    intros i L. specialize (H (S i) ltac:(cbn [length]; lia)). cbn [nth] in H. rewrite <- H. f_equal; lia.
  - intros (H1 & H2) [|i] L; [rewrite Z.add_0_r; exact H1|]. cbn [nth length] in *. rewrite <- H2 by lia. f_equal; lia.
Qed.
Lemma holds_app b a l l' : holds b a (l ++ l') <-> holds b a l /\ holds b (a + Z.of_nat (length l)) l'.
Proof.
  revert a; induction l as [|v l IH]; intro a; cbn [app length].
  - rewrite Z.add_0_r. split; [intro H; split; [intros i L; cbn [length] in L; lia|exact H]|tauto].
  - rewrite !holds_cons, IH. replace (a + 1 + Z.of_nat (length l)) with (a + Z.of_nat (S (length l))) by lia. tauto.
Qed.
Lemma rd_le b n : forall a x, holds b a (le n x) -> rd b a n = x mod 256 ^ Z.of_nat n.
Proof.
  induction n as [|n IH]; intros a x H; cbn [rd le] in *; [rewrite Z.mod_1_r; reflexivity|].
  apply holds_cons in H; destruct H as (H1 & H2). rewrite H1, (IH _ _ H2).
  replace (256 ^ Z.of_nat (S n)) with (256 * 256 ^ Z.of_nat n) by (rewrite Nat2Z.inj_succ, Z.pow_succ_r by lia; reflexivity).
  rewrite Z.rem_mul_r by (try lia; apply Z.pow_pos_nonneg; lia). reflexivity.
Qed.
Lemma le_split n k x : le (n + k) x = le n x ++ le k (x / 256 ^ Z.of_nat n).
Proof.
  revert x; induction n as [|n IH]; intro x; cbn [Nat.add le app]; [rewrite Z.div_1_r; reflexivity|].
  rewrite IH. do 2 f_equal. replace (256 ^ Z.of_nat (S n)) with (256 * 256 ^ Z.of_nat n) by (rewrite Nat2Z.inj_succ, Z.pow_succ_r by lia; reflexivity).
  rewrite Z.div_div by (try lia; apply Z.pow_pos_nonneg; lia). reflexivity.
Qed.

Lemma thunk_length t orig : Z.of_nat (length (thunk_bytes t orig)) <= 12.
Proof. unfold thunk_bytes; cbv zeta. destruct (_ && _); cbn [app length]; rewrite ?app_length, le_length; cbn [length]; lia. Qed.

(** The machine code *)
Lemma thunk_jumps m t orig : 0 <= t < 2 ^ 63 -> 0 <= orig < 2 ^ 64 -> fetchable m t 12 -> holds (bytes m) t (thunk_bytes t orig) -> jumps_to m t orig.
Proof.
  intros T O F H rax.
  assert (FE : forall k n, 0 <= k -> k + n <= 12 -> fetchable m (t + k) n).
  { intros k n K N. destruct F as (mp & I & W & A & B). exists mp; repeat split; [exact I|exact W|lia|lia]. }
  unfold thunk_bytes in H; cbv zeta in H. set (off := signed 64 (orig - t - 5)) in *.
  destruct ((off >=? - 2 ^ 31) && (off <=? 2 ^ 31 - 1)) eqn:G.
  - apply andb_true_iff in G; destruct G as (G1 & G2). apply Z.geb_le in G1. apply Z.leb_le in G2.
    apply holds_cons in H; destruct H as (H1 & H2). change 8%nat with (4 + 4)%nat in H2. rewrite le_split in H2.
    apply holds_app in H2; destruct H2 as (H2 & _). apply rd_le in H2. change (256 ^ Z.of_nat 4) with (2 ^ 32) in H2.
    eapply ld_done; [cbn [fst]; lia|apply x_jmp; [replace t with (t + 0) by lia; apply FE; lia|exact H1]|].
    cbn [fst]. rewrite H2. unfold sext32.
    assert (M : (if off mod 2 ^ 32 <? 2 ^ 31 then off mod 2 ^ 32 else off mod 2 ^ 32 - 2 ^ 32) = off).
    { destruct (Z.ltb_spec off 0) as [N|N].
      - replace (off mod 2 ^ 32) with (off + 2 ^ 32); [destruct (Z.ltb_spec (off + 2 ^ 32) (2 ^ 31)); lia|].
        apply (Z.mod_unique_pos off (2 ^ 32) (-1)); lia.
      - rewrite Z.mod_small by lia. destruct (Z.ltb_spec off (2 ^ 31)); lia. }
    rewrite M. unfold off, signed.
    assert (B := Z.mod_pos_bound (orig - t - 5) (2 ^ 64) ltac:(lia)). assert (D := Z.div_mod (orig - t - 5) (2 ^ 64) ltac:(lia)).
    symmetry. set (q := (orig - t - 5) / 2 ^ 64) in *. set (r := (orig - t - 5) mod 2 ^ 64) in *.
    destruct (Z.ltb_spec r (2 ^ (64 - 1))) as [L|L].
    + apply (Z.mod_unique_pos _ _ (- q)); lia.
    + apply (Z.mod_unique_pos _ _ (- q - 1)); lia.
  - cbn [app] in H. apply holds_cons in H; destruct H as (H1 & H). apply holds_cons in H; destruct H as (H2 & H).
    apply holds_app in H; destruct H as (H3 & H). rewrite le_length in H. apply holds_cons in H; destruct H as (H4 & H).
    apply holds_cons in H; destruct H as (H5 & _).
    replace (t + 1 + 1) with (t + 2) in * by lia. apply rd_le in H3. change (256 ^ Z.of_nat 8) with (2 ^ 64) in H3. rewrite Z.mod_small in H3 by exact O.
    change (Z.of_nat 8) with 8 in *.
    replace (t + 2 + 8) with (t + 10) in * by lia.
    eapply ld_step; [cbn [fst]; lia|apply x_mov; [replace t with (t + 0) by lia; apply FE; lia|exact H1|exact H2]|].
    eapply ld_done; [cbn [fst]; lia|apply x_jmprax; [apply FE; lia|exact H4|exact H5]|]. exact H3.
Qed.

Section Alloc.
  Variables (page : Z) (foreign : list mapping).
  Hypothesis PG : 0 < page <= 2 ^ 62.
  Hypothesis DV : (8 | page).
  Notation inv := (inv 8 page foreign).

  Definition allre (rs : list region) : Prop := Forall (fun r => r_re r = true) rs.
  Definition mapped (m : mach) (a : Z) : Prop := exists mp, In mp (maps m) /\ inside a mp = true.

  Lemma contains_spec r a : reg_ok 8 page r -> (contains r a = true <-> r_start r <= a < r_start r + r_size r).
  Proof.
    intro R. unfold contains. rewrite wsm by (destruct R; lia). rewrite andb_true_iff, Z.leb_le, Z.ltb_lt. tauto.
  Qed.

  Lemma alloc_re m pa l n iso ans m' pa' a : inv m pa l -> 0 < n <= 2 ^ 62 -> os_answer page m n ans ->
    alloc_priv m pa n iso ans = (m', pa', a) -> a <> 0 -> allre (p_regs pa) ->
    Forall (fun r => r_re r = true \/ contains r a = true) (p_regs pa') /\ (forall x, mapped m x -> bytes m' x = bytes m x) /\
    (forall x, mapped m x -> mapped m' x).
  Proof.
    intros V H OS E NZ RE. unfold alloc_priv in E.
    destruct (if iso then None else alloc_in (p_regs pa) n) as [[rs a0]|] eqn:EI.
    - injection E as <- <- <-. destruct iso; [discriminate|]. destruct (alloc_in_spec _ _ _ _ EI) as (rs1 & r & rs2 & r' & E1 & E2 & T).
      cbn [p_regs]. split; [|split; [reflexivity|auto]].
      assert (IR : In r (p_regs pa)) by (rewrite E1; apply in_or_app; right; left; reflexivity).
      destruct (inv_reg _ _ _ _ _ _ _ V IR) as (R & _).
      destruct (try_alloc_spec 8 page ltac:(lia) PG DV r n r' a0 R H T) as (_ & us & -> & _).
      unfold allre in RE. rewrite E1 in RE. apply Forall_app in RE; destruct RE as (RE1 & RE2). inversion RE2 as [|? ? RE3 RE4]; subst.
      apply Forall_app; split; [eapply Forall_impl; [|exact RE1]; cbn; auto|constructor; [left; exact RE3|eapply Forall_impl; [|exact RE4]; cbn; auto]].
    - clear EI. unfold add_region in E. destruct (Z.eqb_spec ans 0) as [->|NA]; [cbn [negb] in E; injection E as <- <- <-; contradiction|].
      destruct OS as [X|(O1 & O2 & O3)]; [contradiction|]. rewrite (i_page _ _ _ _ _ _ V), (i_align _ _ _ _ _ _ V) in E.
      destruct (region_size_spec page PG n H) as (RU & SZ). set (sz := region_size page n) in *. destruct (O3 sz RU) as (O4 & O5).
      assert (MF : (ans =? 0) || (ans =? map_failed) = false).
      { destruct (Z.eqb_spec ans 0); [contradiction|]. destruct (Z.eqb_spec ans map_failed) as [X|X]; [unfold map_failed in X; lia|reflexivity]. }
      unfold os_map in E. rewrite MF in E. unfold set_mode in E. cbn [negb p_regs r_start] in E. rewrite last_last, removelast_last in E.
      set (r := with_re (Reg ans sz iso 8 [] false) false) in *.
      assert (R : reg_ok 8 page r) by (constructor; cbn; auto; lia).
      destruct (try_alloc_fresh 8 page ltac:(lia) DV r n R eq_refl ltac:(cbn; destruct RU; lia) ltac:(lia)) as (r' & T). rewrite T in E.
      destruct (try_alloc_spec 8 page ltac:(lia) PG DV r n r' _ R H T) as (_ & us & -> & R' & _). injection E as <- <- <-. cbn [p_regs].
      split; [|split].
      + apply Forall_app; split; [eapply Forall_impl; [|exact RE]; cbn; auto|constructor; [right|constructor]].
        apply (contains_spec _ _ R'). cbn. lia.
      + intros x (mp & I & J). unfold inside in J. apply andb_true_iff in J; destruct J as (J1 & J2). apply Z.leb_le in J1; apply Z.ltb_lt in J2.
        pose proof (O5 mp I) as AP. unfold apart in AP. unfold os_prot; cbn [bytes].
        destruct (Z.leb_spec ans x); destruct (Z.ltb_spec x (ans + sz)); try reflexivity. exfalso; lia.
      + intros x (mp & I & J). unfold mapped, os_prot; cbn [maps].
        exists (if m_start mp =? ans then Map ans (m_len mp) true else mp). split.
        * apply (in_map (fun mp0 => if m_start mp0 =? ans then Map ans (m_len mp0) true else mp0)). apply in_or_app; left; exact I.
        * destruct (Z.eqb_spec (m_start mp) ans) as [X|X]; [|exact J]. unfold inside in *; cbn [m_start m_len]. rewrite <- X; exact J.
  Qed.

  Lemma set_re_keep m rs p re : Forall (fun r => r_re r = true \/ contains r p = true) rs ->
    Forall (fun r => r_re r = true \/ contains r p = true) (snd (set_in m rs p re)).
  Proof.
    intro F. destruct (set_in_cases m rs p re) as [(E & _)|(rs1 & r & rs2 & E1 & E2 & E3)]; [rewrite E; exact F|].
    rewrite E2; cbn [snd]. rewrite E1 in F. apply Forall_app in F; destruct F as (F1 & F2). inversion F2 as [|? ? F3 F4]; subst.
    apply Forall_app; split; [exact F1|constructor; [right; exact E3|exact F4]].
  Qed.
  Lemma set_re_done m pa l p : inv m pa l -> Forall (fun r => r_re r = true \/ contains r p = true) (p_regs pa) ->
    allre (snd (set_in m (p_regs pa) p true)).
  Proof.
    intros V F. unfold allre. destruct (set_in_cases m (p_regs pa) p true) as [(E & N)|(rs1 & r & rs2 & E1 & E2 & E3)].
    - rewrite E; cbn [snd]. apply Forall_forall; intros x I. destruct (proj1 (Forall_forall _ _) F x I) as [X|X]; [exact X|]. rewrite (N x I) in X; discriminate.
    - rewrite E2; cbn [snd]. assert (PA := regs_apart _ _ _ _ _ _ V). assert (FR := inv_regok _ _ _ _ _ _ V). rewrite E1 in F, FR, PA.
      apply fop_app in PA; destruct PA as (PA & _).
      apply Forall_app in F; destruct F as (F1 & F2). inversion F2 as [|? ? F3 F4]; subst.
      rewrite map_app in PA; cbn [map] in PA.
      assert (K : forall x, In x (rs1 ++ rs2) -> r_re x = true \/ contains x p = true -> r_re x = true).
      { intros x I [X|X]; [exact X|exfalso].
        assert (AP : mapart (reg_map r) (reg_map x)).
        { apply (fop_mid mapart (reg_map x) _ _ _ PA mapart_sym). rewrite <- map_app. apply in_map; exact I. }
        apply contains_spec in E3; [|apply (proj1 (Forall_forall _ _) FR); apply in_or_app; right; left; reflexivity].
        apply contains_spec in X; [|apply (proj1 (Forall_forall _ _) FR); apply in_app_or in I; destruct I as [I|I]; apply in_or_app; [left|right; right]; exact I].
        unfold mapart, apart, reg_map in AP; cbn [m_start m_len] in AP. lia. }
      apply Forall_app; split; [|constructor; [reflexivity|]]; apply Forall_forall; intros x I; apply K.
      + apply in_or_app; auto.
      + exact (proj1 (Forall_forall _ _) F1 x I).
      + apply in_or_app; auto.
      + exact (proj1 (Forall_forall _ _) F4 x I).
  Qed.

  Lemma free_re m rs p m' rs' : free_in m rs p = Some (m', rs') -> allre rs -> allre rs'.
  Proof.
    revert m m' rs'; induction rs as [|r rs IH]; intros m m' rs' E F; cbn [free_in] in E; [injection E as <- <-; constructor|].
    inversion F as [|? ? F1 F2]; subst. destruct (try_free m r p) as [[m1 o]|] eqn:T; [|discriminate]. destruct o as [r'|].
    - destruct (is_nil (r_units r')); [injection E as <- <-; exact F2|]. injection E as <- <-. constructor; [|exact F2].
      unfold try_free in T. destruct (negb (contains r p)); [discriminate|]. destruct (free_unit m r (r_units r) p) as [[m2 o]|]; [|discriminate].
      destruct o as [us|]; [|discriminate]. injection T as <- <-. exact F1.
    - destruct (free_in m1 rs p) as [[m2 rs2]|] eqn:E2; [|discriminate]. injection E as <- <-. constructor; [exact F1|exact (IH _ _ _ E2 F2)].
  Qed.

  (** where a block is *)
  Lemma block_region m pa l b : inv m pa l -> In b l ->
    exists r, In r (p_regs pa) /\ In (reg_map r) (maps m) /\ within (b_addr b) (b_size b) (r_start r) (r_size r) /\ (8 | b_addr b) /\
      0 < b_addr b /\ b_addr b + b_size b <= 2 ^ 63 /\ 0 < b_size b.
  Proof.
    intros V I. apply (Permutation_in _ (i_blocks _ _ _ _ _ _ V)) in I. apply in_flat_map in I; destruct I as (r & I1 & I2).
    unfold blocks in I2; apply in_map_iff in I2; destruct I2 as (u & <- & I2).
    destruct (inv_reg _ _ _ _ _ _ _ V I1) as (R & _ & _ & K). destruct (blk_within 8 page ltac:(lia) r u R I2) as (S & W & A & _).
    exists r. split; [exact I1|split; [exact K|split; [exact W|split; [exact A|]]]]. unfold within in W. destruct R; split; [lia|split; lia].
  Qed.
  Lemma block_fetch m pa l b : inv m pa l -> allre (p_regs pa) -> In b l -> fetchable m (b_addr b) (b_size b).
  Proof.
    intros V RE I. destruct (block_region _ _ _ _ V I) as (r & I1 & K & (W1 & W2) & _).
    exists (reg_map r). split; [exact K|split; [|cbn; lia]]. cbn. rewrite (proj1 (Forall_forall _ _) RE r I1). reflexivity.
  Qed.
  Lemma block_not_writable m pa l b x : inv m pa l -> allre (p_regs pa) -> In b l -> b_addr b <= x < b_addr b + b_size b -> writable m x = false.
  Proof.
    intros V RE I X. destruct (block_region _ _ _ _ V I) as (r & I1 & K & (W1 & W2) & _). assert (PA := i_apart _ _ _ _ _ _ V).
    destruct (writable m x) eqn:WR; [exfalso|reflexivity]. unfold writable in WR. apply existsb_exists in WR; destruct WR as (mp & IM & Q).
    apply andb_true_iff in Q; destruct Q as (Q1 & Q2). unfold inside in Q1. apply andb_true_iff in Q1; destruct Q1 as (Q3 & Q4).
    apply Z.leb_le in Q3; apply Z.ltb_lt in Q4. apply in_split in K; destruct K as (y & z & E). rewrite E in PA, IM. apply in_app_or in IM.
    assert (B : In mp (y ++ z) -> False).
    { intro J. pose proof (fop_mid mapart mp y (reg_map r) z PA mapart_sym J) as AP. unfold mapart, apart, reg_map in AP; cbn [m_start m_len] in AP. lia. }
    destruct IM as [J|[J|J]]; [apply B, in_or_app; auto| |apply B, in_or_app; auto].
    subst mp. cbn in Q2. rewrite (proj1 (Forall_forall _ _) RE r I1) in Q2. discriminate.
  Qed.

  Definition tblock (x : Z * Z) : block := Block (fst x) 12 false.
  Record tinv (m : mach) (pa : palloc) (ts : list (Z * Z)) : Prop := TInv {
    t_inv : inv m pa (map tblock ts);
    t_re : allre (p_regs pa);
    t_holds : Forall (fun x => 0 <= snd x < 2 ^ 64 /\ holds (bytes m) (fst x) (thunk_bytes (fst x) (snd x))) ts
  }.

  Lemma tinv_jumps m pa ts x : tinv m pa ts -> In x ts -> jumps_to m (fst x) (snd x) /\ (8 | fst x) /\ fst x <> 0.
  Proof.
    intros [V RE H] I. destruct (proj1 (Forall_forall _ _) H x I) as (O & HB).
    assert (IB : In (tblock x) (map tblock ts)) by (apply in_map; exact I).
    destruct (block_region _ _ _ _ V IB) as (r & _ & _ & _ & D & P & Q & _). cbn [tblock b_addr b_size] in *.
    split; [|split; [exact D|lia]]. apply thunk_jumps; [lia|exact O|exact (block_fetch _ _ _ _ V RE IB)|exact HB].
  Qed.

  Lemma holds_keep b b' a l n : Z.of_nat (length l) <= n -> (forall x, a <= x < a + n -> b' x = b x) -> holds b a l -> holds b' a l.
  Proof. intros N K H i L. rewrite K by lia. exact (H i L). Qed.

  (** the trampoline blocks are disjoint from a new one *)
  Lemma init_ok m pa ts orig ans : tinv m pa ts -> Z.odd orig = true -> 0 <= orig < 2 ^ 64 -> os_answer page m 12 ans -> ans <> 0 ->
    exists m' pa' t, init m pa orig ans = Some (m', pa', t) /\ t <> 0 /\ tinv m' pa' ((t, orig) :: ts) /\
      (forall x, mapped m x -> ~ (t <= x < t + 12) -> bytes m' x = bytes m x).
  Proof.
    intros [V RE H] OD O OS NA. unfold init. rewrite OD.
    destruct (alloc_ok 8 page foreign ltac:(lia) PG DV m pa _ 12 false ans V ltac:(lia) OS) as (m1 & pa1 & t & E & V1 & K1 & Z1).
    rewrite E. assert (NZ : t <> 0) by (intro X; destruct (Z1 X); contradiction).
    destruct (alloc_re m pa _ 12 false ans _ _ _ V ltac:(lia) OS E NZ RE) as (F1 & BM & MM).
    cbn [ledger] in V1. destruct (Z.eqb_spec t 0) as [X|_]; [contradiction|]. set (l1 := Block t 12 false :: map tblock ts) in *.
    assert (I0 : In (Block t 12 false) l1) by (left; reflexivity).
    destruct (set_ok 8 page foreign m1 pa1 l1 t false V1) as (V2 & B2).
    pose proof (set_writable 8 page foreign ltac:(lia) m1 pa1 l1 (Block t 12 false) false V1 I0) as W2. cbn [b_addr b_size] in W2.
    pose proof (set_re_keep m1 (p_regs pa1) t false F1) as F2.
    destruct (set_in m1 (p_regs pa1) t false) as [m2 rs2]. cbn [fst snd] in *.
    destruct (store_list_ok (thunk_bytes t orig) m2 t) as (m3 & E3 & M3 & B3).
    { intros x X. apply W2. pose proof (thunk_length t orig). lia. }
    rewrite E3. cbn beta iota.
    assert (V3 : inv m3 (PA (p_align pa1) (p_page pa1) rs2) l1).
    { destruct V2. constructor; try assumption; rewrite M3; assumption. }
    destruct (set_ok 8 page foreign m3 _ l1 t true V3) as (V4 & B4). cbn [p_regs p_align p_page] in V4, B4.
    pose proof (set_re_done m3 _ l1 t V3 F2) as R4. cbn [p_regs] in R4.
    destruct (set_in m3 rs2 t true) as [m4 rs4]. cbn [fst snd] in *.
    exists m4, (PA (p_align pa1) (p_page pa1) rs4), t. split; [reflexivity|]. split; [exact NZ|].
    assert (OUT : forall x, ~ (t <= x < t + 12) -> bytes m4 x = bytes m1 x).
    { intros x X. rewrite B4, B3, B2. pose proof (thunk_length t orig).
      destruct (Z.leb_spec t x); destruct (Z.ltb_spec x (t + Z.of_nat (length (thunk_bytes t orig)))); cbn [andb]; try reflexivity. exfalso; lia. }
    split; [|intros x X1 X2; rewrite (OUT x X2); exact (BM x X1)].
    constructor; cbn [p_regs]; [exact V4|exact R4|]. constructor; cbn [fst snd].
    - split; [exact O|]. intros i L. rewrite B4, B3.
      destruct (Z.leb_spec t (t + Z.of_nat i)); [|lia]. destruct (Z.ltb_spec (t + Z.of_nat i) (t + Z.of_nat (length (thunk_bytes t orig)))); [|lia].
      cbn [andb]. f_equal. lia.
    - apply Forall_forall; intros x I. destruct (proj1 (Forall_forall _ _) H x I) as (O' & HB). split; [exact O'|].
      assert (IB : In (tblock x) (map tblock ts)) by (apply in_map; exact I).
      apply (holds_keep (bytes m) _ _ _ 12 (thunk_length _ _)); [|exact HB]. intros y Y.
      assert (AP : apart t 12 (fst x) 12).
      { assert (P := inv_flat 8 page foreign ltac:(lia) _ _ _ V1).
        pose proof (fop_perm bapart _ _ bapart_sym (Permutation_sym (i_blocks _ _ _ _ _ _ V1)) P) as Q. unfold l1 in Q.
        inversion Q as [|? ? Q1 Q2]; subst. exact (proj1 (Forall_forall _ _) Q1 _ IB). }
      unfold apart in AP. rewrite OUT by lia. apply (K1 (tblock x) y IB). cbn; lia.
  Qed.

  Lemma cleanup_ok m pa ts t : tinv m pa ts ->
    exists m' pa', cleanup m pa t = Some (m', pa') /\ tinv m' pa' (filter (fun x => negb (fst x =? t)) ts).
  Proof.
    intros [V RE H]. unfold cleanup.
    destruct (free_ok 8 page foreign ltac:(lia) m pa _ t V) as (m' & rs & E & V' & K & _). rewrite E. do 2 eexists. split; [reflexivity|].
    assert (EF : filter (fun b => negb (b_addr b =? t)) (map tblock ts) = map tblock (filter (fun x => negb (fst x =? t)) ts)).
    { clear. induction ts as [|x ts IH]; cbn [filter map]; [reflexivity|]. cbn [tblock b_addr]. destruct (negb (fst x =? t)); cbn [map]; rewrite IH; reflexivity. }
    rewrite EF in V', K. constructor; cbn [p_regs]; [exact V'|exact (free_re _ _ _ _ _ E RE)|].
    apply Forall_forall; intros x I. assert (I2 := I). apply filter_In in I2; destruct I2 as (I2 & _).
    destruct (proj1 (Forall_forall _ _) H x I2) as (O' & HB). split; [exact O'|].
    apply (holds_keep (bytes m) _ _ _ 12 (thunk_length _ _)); [|exact HB]. intros y Y. apply (K (tblock x) y); [apply in_map; exact I|exact Y].
  Qed.

  Lemma write_ok m pa ts f : tinv m pa ts -> (forall x, writable m x = false -> f x = bytes m x) -> tinv (Mach (maps m) f) pa ts.
  Proof.
    intros [V RE H] W. constructor; [destruct V; constructor; assumption|exact RE|]. cbn [bytes].
    apply Forall_forall; intros x I. destruct (proj1 (Forall_forall _ _) H x I) as (O' & HB). split; [exact O'|].
    apply (holds_keep (bytes m) _ _ _ 12 (thunk_length _ _)); [|exact HB]. intros y Y. apply W.
    apply (block_not_writable m pa _ (tblock x) y V RE); [apply in_map; exact I|exact Y].
  Qed.
End Alloc.
