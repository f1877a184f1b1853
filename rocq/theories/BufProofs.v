(** Proofs about GenBuffer. *)
From Coq Require Import List ZArith Bool Permutation Lia.
From Verif Require Import Base ListModel PageModel PageSpec PageProofs TrampModel TrampProofs BufModel BufSpec.
Import ListNotations.
Local Open Scope Z_scope.

Lemma enc_le k x : enc k x = le k x.
Proof.
  unfold enc. revert x. induction k as [|k IH]; intro x; cbn [seq map le]; [reflexivity|].
  change (256 ^ Z.of_nat 0) with 1. rewrite Z.div_1_r. f_equal. rewrite <- IH, <- seq_shift, map_map. apply map_ext. intro j.
  rewrite Nat2Z.inj_succ, Z.pow_succ_r by lia. rewrite Z.div_div by (try lia; apply Z.pow_pos_nonneg; lia). reflexivity.
Qed.
Lemma encode_bytes p : payload_bytes p = encode p.
Proof. destruct p; [reflexivity|symmetry; apply enc_le]. Qed.

Lemma load_list_ok m n : forall a, (forall x, a <= x < a + Z.of_nat n -> readable m x = true) ->
  exists l, load_list m a n = Some l /\ length l = n /\ holds (bytes m) a l.
Proof.
  induction n as [|n IH]; intros a R; cbn [load_list]; [exists []; repeat split; intros i L; cbn [length] in L; lia|].
  rewrite R by lia. destruct (IH (a + 1)) as (l & -> & LN & H); [intros x X; apply R; lia|].
  exists (bytes m a :: l). split; [reflexivity|split; [cbn [length]; congruence|]]. apply holds_cons; auto.
Qed.
Lemma holds_unique b a l l' : length l = length l' -> holds b a l -> holds b a l' -> l = l'.
Proof.
  revert a l'; induction l as [|x l IH]; intros a [|y l'] E H H'; try discriminate; [reflexivity|].
  apply holds_cons in H, H'. destruct H as (A & B), H' as (A' & B'). f_equal; [congruence|]. apply (IH (a + 1)); [injection E; auto|exact B|exact B'].
Qed.

(** stores in terms of [holds] *)
Lemma store_holds l m a : (forall x, a <= x < a + Z.of_nat (length l) -> writable m x = true) ->
  exists m', store_list m a l = Some m' /\ maps m' = maps m /\ holds (bytes m') a l /\
    forall x, ~ (a <= x < a + Z.of_nat (length l)) -> bytes m' x = bytes m x.
Proof.
  intro W. destruct (store_list_ok l m a W) as (m' & E & M & B). exists m'. split; [exact E|split; [exact M|split]].
  - intros i L. rewrite B. destruct (Z.leb_spec a (a + Z.of_nat i)); [|lia].
    destruct (Z.ltb_spec (a + Z.of_nat i) (a + Z.of_nat (length l))); [|lia]. cbn [andb]. f_equal; lia.
  - intros x X. rewrite B. destruct (Z.leb_spec a x); destruct (Z.ltb_spec x (a + Z.of_nat (length l))); cbn [andb]; try reflexivity. exfalso; lia.
Qed.

Section Buf.
  Variables (align page : Z) (foreign : list mapping).
  Hypothesis AL : 0 < align.
  Hypothesis PG : 0 < page <= 2 ^ 62.
  Hypothesis DV : (align | page).
  Notation inv := (inv align page foreign).

  Lemma inv_perm m pa l l' : Permutation l l' -> inv m pa l -> inv m pa l'.
  Proof.
    intros P V. constructor; try apply V. apply Permutation_trans with l; [apply Permutation_sym; exact P|apply V].
  Qed.
  Lemma inv_store m m' pa l : maps m' = maps m -> inv m pa l -> inv m' pa l.
  Proof. intros M V. constructor; try apply V; rewrite M; apply V. Qed.
  Lemma inv_fop m pa l : inv m pa l -> ForallOrdPairs bapart l.
  Proof.
    intro V. apply (fop_perm bapart _ _ bapart_sym (Permutation_sym (i_blocks _ _ _ _ _ _ V))). exact (inv_flat align page foreign AL _ _ _ V).
  Qed.
  Lemma inv_nodup m pa l : inv m pa l -> NoDup (map b_addr l).
  Proof.
    intro V. apply (Permutation_NoDup (l := map b_addr (flat_map (blocks align) (p_regs pa)))).
    - apply Permutation_map, Permutation_sym, (i_blocks _ _ _ _ _ _ V).
    - exact (inv_addrs align page foreign AL _ _ _ V).
  Qed.
  (** the mapping of a block *)
  Lemma inv_map m pa l b : inv m pa l -> In b l -> 0 < b_addr b /\ 0 < b_size b /\ b_addr b + b_size b <= 2 ^ 63 /\
    exists mp, In mp (maps m) /\ within (b_addr b) (b_size b) (m_start mp) (m_len mp).
  Proof.
    intros V I. apply (Permutation_in _ (i_blocks _ _ _ _ _ _ V)) in I. apply in_flat_map in I; destruct I as (r & I1 & I2).
    unfold blocks in I2; apply in_map_iff in I2; destruct I2 as (u & <- & I2).
    destruct (inv_reg _ _ _ _ _ _ _ V I1) as (R & _ & _ & K). destruct (blk_within align page AL r u R I2) as (S & W & A & _).
    assert (W' := W). unfold within in W'. destruct R. split; [lia|split; [exact S|split; [lia|]]]. exists (reg_map r); split; [exact K|exact W].
  Qed.
  Lemma inv_readable m pa l b x : inv m pa l -> In b l -> b_addr b <= x < b_addr b + b_size b -> readable m x = true.
  Proof.
    intros V I X. destruct (inv_map _ _ _ _ V I) as (_ & _ & _ & mp & J & W). unfold readable. apply existsb_exists. exists mp; split; [exact J|].
    unfold inside, within in *. apply andb_true_iff; split; [apply Z.leb_le|apply Z.ltb_lt]; lia.
  Qed.
  Definition bwritable (m : mach) (b : block) : Prop := forall x, b_addr b <= x < b_addr b + b_size b -> writable m x = true.

  (** a block keeps its mode when mappings only disappear *)
  Lemma writable_keep m m' pa pa' l l' b : inv m pa l -> inv m' pa' l' -> (forall mp, In mp (maps m') -> In mp (maps m)) ->
    In b l' -> bwritable m b -> bwritable m' b.
  Proof.
    intros V V' SUB I W x X. specialize (W x X). destruct (inv_map _ _ _ _ V' I) as (_ & _ & _ & mp & J & (W1 & W2)).
    unfold writable in *. apply existsb_exists in W; destruct W as (mq & IQ & Q). apply andb_true_iff in Q; destruct Q as (Q1 & Q2).
    assert (Q3 := Q1). unfold inside in Q3. apply andb_true_iff in Q3; destruct Q3 as (Q3 & Q4). apply Z.leb_le in Q3; apply Z.ltb_lt in Q4.
    apply existsb_exists. exists mp. split; [exact J|]. assert (PA := i_apart _ _ _ _ _ _ V). pose proof (SUB mp J) as K.
    assert (mp = mq).
    { apply in_split in K; destruct K as (y & z & E). rewrite E in PA, IQ.
      assert (B : In mq (y ++ z) -> False).
      { intro JJ. pose proof (fop_mid mapart mq y mp z PA mapart_sym JJ) as AP. unfold mapart, apart in AP. lia. }
      apply in_app_or in IQ; destruct IQ as [H|[H|H]]; [exfalso; apply B, in_or_app; auto|exact H|exfalso; apply B, in_or_app; auto]. }
    subst mq. rewrite Q1, Q2. reflexivity.
  Qed.

  Lemma set_pa_ok m pa l p re : inv m pa l -> exists m' pa', set_pa m pa p re = (m', pa') /\ inv m' pa' l /\ bytes m' = bytes m /\
    forall b, In b l -> b_addr b = p -> forall x, b_addr b <= x < b_addr b + b_size b -> writable m' x = negb re.
  Proof.
    intro V. unfold set_pa. destruct (set_ok align page foreign m pa l p re V) as (V' & B).
    assert (W : forall b, In b l -> b_addr b = p -> forall x, b_addr b <= x < b_addr b + b_size b -> writable (fst (set_in m (p_regs pa) p re)) x = negb re).
    { intros b I <-. exact (set_writable align page foreign AL m pa l b re V I). }
    destruct (set_in m (p_regs pa) p re) as [m' rs]. cbn [fst snd] in *. eexists; eexists; split; [reflexivity|split; [exact V'|split; [exact B|exact W]]].
  Qed.
  Lemma free_pa_ok m pa l p : inv m pa l -> exists m' pa', free_pa m pa p = Some (m', pa') /\
    inv m' pa' (filter (fun b => negb (b_addr b =? p)) l) /\ keeps m m' (filter (fun b => negb (b_addr b =? p)) l) /\
    forall mp, In mp (maps m') -> In mp (maps m).
  Proof.
    intro V. unfold free_pa. destruct (free_ok align page foreign AL m pa l p V) as (m' & rs & E & V' & K & _ & S). rewrite E.
    eexists; eexists; split; [reflexivity|split; [exact V'|split; [exact K|exact S]]].
  Qed.

  (** Buffers *)
  Definition bblock (b : gbuf) : list block := if g_data b =? 0 then [] else [Block (g_data b) (g_alloc b) false].
  Definition okbuf (m : mach) (b : gbuf) (c : list Z) : Prop :=
    (b = gempty /\ c = []) \/
    (g_data b <> 0 /\ g_size b = Z.of_nat (length c) /\ c <> [] /\ g_size b <= g_alloc b < 2 ^ 32 /\ holds (bytes m) (g_data b) c).

  Lemma okbuf_keep m m' b c l : okbuf m b c -> (forall x, In x (bblock b) -> In x l) -> keeps m m' l -> okbuf m' b c.
  Proof.
    intros [O|(D & S & N & A & H)] I K; [left; exact O|right]. repeat (split; [assumption|]).
    apply (holds_keep (bytes m) _ _ _ (g_alloc b)); [lia| |exact H]. intros x X.
    apply (K (Block (g_data b) (g_alloc b) false) x); [|exact X]. apply I. unfold bblock. destruct (Z.eqb_spec (g_data b) 0); [contradiction|left; reflexivity].
  Qed.

  Lemma grow_spec a n : 0 <= a < 2 ^ 32 -> a < n < 2 ^ 31 -> n <= grow a n < 2 ^ 32.
  Proof.
    intros A N. unfold grow, u32. rewrite Z.mod_small by lia. cbv zeta.
    rewrite Z.gtb_ltb. destruct (Z.ltb_spec (a * 2) n); [destruct (Z.ltb_spec n 64)|destruct (Z.ltb_spec (a * 2) 64)]; lia.
  Qed.

  Lemma keeps_trans m m1 m2 l l1 : keeps m m1 l -> keeps m1 m2 l1 -> (forall b, In b l -> In b l1) -> keeps m m2 l.
  Proof. intros K1 K2 I b a J X. rewrite (K2 b a (I b J) X). exact (K1 b a J X). Qed.

  Lemma push_ok m pa b c others data ans : inv m pa (bblock b ++ others) -> okbuf m b c ->
    (c = [] \/ Forall (bwritable m) (bblock b)) -> data <> [] -> Z.of_nat (length c + length data) < 2 ^ 31 ->
    os_answer page m (grow (g_alloc b) (g_size b + Z.of_nat (length data))) ans -> ans <> 0 ->
    exists m' pa' b', push m pa b data ans = Some (m', pa', b') /\ inv m' pa' (bblock b' ++ others) /\ okbuf m' b' (c ++ data) /\
      keeps m m' others /\ Forall (bwritable m') (bblock b') /\ g_data b' <> 0.
  Proof.
    intros V O W ND LN OS NA. unfold push.
    assert (SZ : g_size b = Z.of_nat (length c)) by (destruct O as [(-> & ->)|(_ & S & _)]; [reflexivity|exact S]).
    assert (AB : g_size b <= g_alloc b < 2 ^ 32) by (destruct O as [(-> & ->)|(_ & S & _ & A & _)]; [cbn; lia|exact A]).
    assert (LD : (0 < length data)%nat) by (destruct data; [contradiction|cbn [length]; lia]).
    assert (EU : u32 (g_size b + Z.of_nat (length data)) = g_size b + Z.of_nat (length data)) by (unfold u32; apply Z.mod_small; lia).
    cbv zeta. rewrite !EU, Z.gtb_ltb.
    set (ns := g_size b + Z.of_nat (length data)) in *.
    destruct (Z.ltb_spec (g_alloc b) ns) as [G|G].
    - (* growth *)
      assert (GR := grow_spec (g_alloc b) ns ltac:(lia) ltac:(lia)). set (n := grow (g_alloc b) ns) in *.
      destruct (alloc_ok align page foreign AL PG DV m pa _ n false ans V ltac:(lia) OS) as (m1 & pa1 & nb & E & V1 & K1 & Z1).
      rewrite E. assert (NZ : nb <> 0) by (intro X; destruct (Z1 X); contradiction).
      cbn [ledger] in V1. destruct (Z.eqb_spec nb 0) as [X|_]; [contradiction|].
      set (B := Block nb n false) in *.
      destruct (set_pa_ok m1 pa1 _ nb false V1) as (m2 & pa2 & -> & V2 & B2 & W2).
      specialize (W2 B (or_introl eq_refl) eq_refl). cbn [b_addr b_size B negb] in W2.
      assert (LR : Z.of_nat (length (repeat 204 (Z.to_nat n))) = n) by (rewrite repeat_length; lia).
      destruct (store_holds (repeat 204 (Z.to_nat n)) m2 nb) as (m3 & -> & M3 & _ & B3); [rewrite LR; exact W2|]. rewrite LR in B3.
      assert (V3 := inv_store _ _ _ _ M3 V2).
      assert (AP := inv_fop _ _ _ V3). inversion AP as [|? ? AP1 AP2]; subst.
      assert (K3 : keeps m m3 (bblock b ++ others)).
      { intros x a I X. pose proof (proj1 (Forall_forall _ _) AP1 x I) as Q. unfold bapart, apart in Q; cbn [B b_addr b_size] in Q.
        rewrite B3 by lia. rewrite B2. exact (K1 x a I X). }
      (* memcpy *)
      assert (MC : exists m4, memcpy m3 nb (g_data b) (g_size b) = Some m4 /\ maps m4 = maps m3 /\ holds (bytes m4) nb c /\
                     forall x, ~ (nb <= x < nb + n) -> bytes m4 x = bytes m3 x).
      { unfold memcpy. assert (LL : load_list m3 (g_data b) (Z.to_nat (g_size b)) = Some c).
        { destruct O as [(-> & ->)|(D & S & N & A & H)]; [reflexivity|].
          destruct (load_list_ok m3 (Z.to_nat (g_size b)) (g_data b)) as (l & EL & L1 & L2).
          - intros x X. apply (inv_readable m3 pa2 (B :: bblock b ++ others) (Block (g_data b) (g_alloc b) false) x V3); [|cbn; lia].
            right; apply in_or_app; left. unfold bblock. destruct (Z.eqb_spec (g_data b) 0); [contradiction|left; reflexivity].
          - rewrite EL. f_equal. apply (holds_unique (bytes m3) (g_data b)); [lia|exact L2|].
            apply (holds_keep (bytes m) _ _ _ (g_alloc b)); [lia| |exact H]. intros x X.
            apply (K3 (Block (g_data b) (g_alloc b) false) x); [|exact X]. apply in_or_app; left.
            unfold bblock. destruct (Z.eqb_spec (g_data b) 0); [contradiction|left; reflexivity]. }
        rewrite LL. destruct (store_holds c m3 nb) as (m4 & E4 & M4 & H4 & B4).
        - intros x X. unfold writable. rewrite M3. apply W2. lia.
        - exists m4. split; [exact E4|split; [exact M4|split; [exact H4|]]]. intros x X; apply B4; lia. }
      destruct MC as (m4 & -> & M4 & H4 & B4). assert (V4 := inv_store _ _ _ _ M4 V3).
      assert (K4 : keeps m m4 (bblock b ++ others)).
      { intros x a I X. pose proof (proj1 (Forall_forall _ _) AP1 x I) as Q. unfold bapart, apart in Q; cbn [B b_addr b_size] in Q.
        rewrite B4 by lia. exact (K3 x a I X). }
      (* the old block *)
      assert (FR : exists m7 pa7, (if negb (g_data b =? 0) then
                       let '(m, pa) := set_pa m4 pa2 (g_data b) true in
                       let '(m, pa) := set_pa m pa nb false in
                       free_pa m pa (g_data b)
                     else Some (m4, pa2)) = Some (m7, pa7) /\ inv m7 pa7 (B :: others) /\ keeps m4 m7 (B :: others) /\ bwritable m7 B).
      { unfold bblock in V4. destruct (Z.eqb_spec (g_data b) 0) as [D|D]; cbn [negb app] in *.
        - exists m4, pa2. split; [reflexivity|split; [exact V4|split; [intros x a _ _; reflexivity|]]].
          intros x X. unfold writable. rewrite M4, M3. exact (W2 x X).
        - destruct (set_pa_ok m4 pa2 _ (g_data b) true V4) as (m5 & pa5 & -> & V5 & B5 & _).
          destruct (set_pa_ok m5 pa5 _ nb false V5) as (m6 & pa6 & -> & V6 & B6 & W6). specialize (W6 B (or_introl eq_refl) eq_refl).
          destruct (free_pa_ok m6 pa6 _ (g_data b) V6) as (m7 & pa7 & -> & V7 & K7 & S7).
          assert (EF : filter (fun x => negb (b_addr x =? g_data b)) (B :: Block (g_data b) (g_alloc b) false :: others) = B :: others).
          { apply (filter_mid (g_data b) [B] (Block (g_data b) (g_alloc b) false) others); [exact (inv_nodup _ _ _ V6)|reflexivity]. }
          rewrite EF in V7, K7. exists m7, pa7. split; [reflexivity|split; [exact V7|split]].
          + intros x a I X. rewrite (K7 x a I X), B6, B5. reflexivity.
          + apply (writable_keep m6 m7 pa6 pa7 _ _ B V6 V7 S7 (or_introl eq_refl)). exact W6. }
      destruct FR as (m7 & pa7 & -> & V7 & K7 & W7).
      destruct (store_holds data m7 (nb + g_size b)) as (m8 & -> & M8 & H8 & B8); [intros x X; apply W7; cbn [B b_addr b_size]; lia|].
      assert (V8 := inv_store _ _ _ _ M8 V7).
      eexists; eexists; eexists. split; [reflexivity|]. unfold bblock; cbn [g_data g_alloc]. destruct (Z.eqb_spec nb 0); [contradiction|].
      assert (APO := inv_fop _ _ _ V7). inversion APO as [|? ? AO1 AO2]; subst.
      split; [exact V8|split; [|split; [|split; [|exact NZ]]]].
      + right. cbn [g_data g_size g_alloc]. split; [exact NZ|split; [unfold ns; rewrite app_length; lia|split; [destruct c; [exact ND|discriminate]|split; [lia|]]]].
        apply holds_app; split; [|rewrite <- SZ; exact H8].
        apply (holds_keep (bytes m4) _ _ _ (g_size b)); [lia| |exact H4]. intros x X. rewrite B8 by lia.
        apply (K7 B x (or_introl eq_refl)). cbn [B b_addr b_size]. lia.
      + intros x a I X. pose proof (proj1 (Forall_forall _ _) AO1 x I) as Q. unfold bapart, apart in Q; cbn [B b_addr b_size] in Q.
        rewrite B8 by lia. rewrite (K7 x a (or_intror I) X). apply (K4 x a); [apply in_or_app; right; exact I|exact X].
      + constructor; [|constructor]. intros x X. unfold writable. rewrite M8. apply W7; exact X.
    - (* in place *)
      destruct O as [(-> & ->)|(D & S & N & A & H)]; [cbn in G; lia|].
      destruct W as [W|W]; [contradiction|]. unfold bblock in *. destruct (Z.eqb_spec (g_data b) 0) as [X|_]; [contradiction|].
      inversion W as [|? ? W1 W2]; subst. cbn [app] in V. set (B := Block (g_data b) (g_alloc b) false) in *.
      destruct (store_holds data m (g_data b + g_size b)) as (m8 & -> & M8 & H8 & B8); [intros x X; apply W1; cbn [B b_addr b_size]; lia|].
      eexists; eexists; eexists. split; [reflexivity|]. cbn [g_data g_alloc]. destruct (Z.eqb_spec (g_data b) 0) as [X|_]; [contradiction|].
      assert (APO := inv_fop _ _ _ V). inversion APO as [|? ? AO1 AO2]; subst.
      split; [exact (inv_store _ _ _ _ M8 V)|split; [|split; [|split; [|exact D]]]].
      + right. cbn [g_data g_size g_alloc]. split; [exact D|split; [unfold ns; rewrite app_length; lia|split; [destruct c; [exact ND|discriminate]|split; [lia|]]]].
        apply holds_app; split; [|rewrite <- SZ; exact H8].
        apply (holds_keep (bytes m) _ _ _ (g_size b)); [lia| |exact H]. intros x X. apply B8. lia.
      + intros x a I X. pose proof (proj1 (Forall_forall _ _) AO1 x I) as Q. unfold bapart, apart in Q; cbn [B b_addr b_size] in Q.
        apply B8. lia.
      + constructor; [|constructor]. intros x X. unfold writable. rewrite M8. apply W1; exact X.
  Qed.

  (** All buffers *)
  Record binv (m : mach) (pa : palloc) (bs : list gbuf) (s : sbuf) : Prop := BInv {
    bi_inv : inv m pa (flat_map bblock bs);
    bi_ok : Forall2 (okbuf m) bs (s_cont s);
    bi_open : forall i, s_open s = Some i -> exists b, nth_error bs i = Some b /\ g_data b <> 0 /\ Forall (bwritable m) (bblock b)
  }.
  Definition ballowed (m : mach) (bs : list gbuf) (o : bop) : Prop :=
    match o with
    | BPush i p ans => forall b, nth_error bs i = Some b ->
        os_answer page m (grow (g_alloc b) (g_size b + Z.of_nat (length (payload_bytes p)))) ans /\ ans <> 0
    | _ => True
    end.

  Lemma lset_split {A} (l1 : list A) a l2 x : lset (l1 ++ a :: l2) (length l1) x = l1 ++ x :: l2.
  Proof. induction l1 as [|y l1 IH]; cbn [app length lset]; [reflexivity|]. rewrite IH; reflexivity. Qed.
  Lemma put_split l1 a l2 x : put (l1 ++ a :: l2) (length l1) x = l1 ++ x :: l2.
  Proof.
    unfold put. rewrite firstn_app, Nat.sub_diag, firstn_all. cbn [firstn]. rewrite app_nil_r. f_equal. f_equal.
    change (S (length l1)) with (1 + length l1)%nat. rewrite skipn_app. rewrite skipn_all2 by lia.
    replace (1 + length l1 - length l1)%nat with 1%nat by lia. reflexivity.
  Qed.
  Lemma focus m bs cs i c : Forall2 (okbuf m) bs cs -> nth_error cs i = Some c ->
    exists b1 b b2 c1 c2, bs = b1 ++ b :: b2 /\ cs = c1 ++ c :: c2 /\ length b1 = i /\ length c1 = i /\
      Forall2 (okbuf m) b1 c1 /\ okbuf m b c /\ Forall2 (okbuf m) b2 c2.
  Proof.
    intros F E. apply nth_error_split in E; destruct E as (c1 & c2 & -> & L). apply Forall2_app_inv_r in F.
    destruct F as (b1 & bb & F1 & F2 & ->). inversion F2 as [|b ? b2 ? F3 F4]; subst. exists b1, b, b2, c1, c2.
    repeat split; auto. clear - F1. induction F1 as [|x y l l' H F IH]; cbn [length]; congruence.
  Qed.
  Lemma nth_mid {A} (l1 : list A) a l2 : nth_error (l1 ++ a :: l2) (length l1) = Some a.
  Proof. rewrite nth_error_app2 by lia. rewrite Nat.sub_diag. reflexivity. Qed.
  Lemma forall2_keep m m' bs cs l : Forall2 (okbuf m) bs cs -> (forall b x, In b bs -> In x (bblock b) -> In x l) -> keeps m m' l ->
    Forall2 (okbuf m') bs cs.
  Proof.
    intros F I K. induction F as [|b c bs cs O F IH]; constructor.
    - apply (okbuf_keep m m' b c l O); [|exact K]. intros x X; apply (I b x); [left; reflexivity|exact X].
    - apply IH. intros y x Y X; apply (I y x); [right; exact Y|exact X].
  Qed.
  Lemma blocks_mid b1 b b2 : Permutation (flat_map bblock (b1 ++ b :: b2)) (bblock b ++ flat_map bblock (b1 ++ b2)).
  Proof.
    rewrite !flat_map_app. cbn [flat_map]. rewrite !app_assoc. apply Permutation_app_tail. apply Permutation_app_comm.
  Qed.

  Lemma splice_holds f g a off l c : (off + length l <= length c)%nat -> holds f a c -> holds g (a + Z.of_nat off) l ->
    (forall x, ~ (a + Z.of_nat off <= x < a + Z.of_nat off + Z.of_nat (length l)) -> g x = f x) -> holds g a (splice c off l).
  Proof.
    intros L H1 H2 K. unfold splice. rewrite <- (firstn_skipn off c) in H1. apply holds_app in H1; destruct H1 as (A & B).
    assert (LF : length (firstn off c) = off) by (apply firstn_length_le; lia). rewrite LF in B.
    rewrite <- (firstn_skipn (length l) (skipn off c)) in B. apply holds_app in B; destruct B as (_ & B). rewrite skipn_skipn in B.
    assert (LF2 : length (firstn (length l) (skipn off c)) = length l) by (apply firstn_length_le; rewrite skipn_length; lia). rewrite LF2 in B.
    apply holds_app; split; [|rewrite LF; apply holds_app; split; [exact H2|]].
    - intros i I. rewrite K by lia. exact (A i I).
    - intros i I. rewrite K by lia. replace (off + length l)%nat with (length l + off)%nat in * by lia. exact (B i I).
  Qed.
  Lemma splice_length c off l : (off + length l <= length c)%nat -> length (splice c off l) = length c.
  Proof. intro L. unfold splice. rewrite !app_length, firstn_length_le, skipn_length by lia. lia. Qed.

  Lemma bstep_ok m pa bs s o s' : binv m pa bs s -> bspec s o s' -> ballowed m bs o ->
    exists m' pa' bs', bstep m pa bs o = Some (m', pa', bs') /\ binv m' pa' bs' s'.
  Proof.
    intros [V F OP] SP AO. destruct SP as [s i p ans c E OC NE LN|s i off p c E OC LE|s i c E|s i c E]; cbn [bstep].
    - (* push *)
      destruct (focus _ _ _ _ _ F E) as (b1 & b & b2 & c1 & c2 & EB & EC & L1 & L2 & F1 & FB & F2).
      assert (NB : nth_error bs i = Some b) by (rewrite EB, <- L1; apply nth_mid). rewrite NB.
      destruct (AO b NB) as (OS & NA). rewrite encode_bytes in *.
      assert (V1 : inv m pa (bblock b ++ flat_map bblock (b1 ++ b2))) by (apply (inv_perm _ _ _ _ (blocks_mid b1 b b2)); rewrite <- EB; exact V).
      assert (WR : c = [] \/ Forall (bwritable m) (bblock b)).
      { destruct OC as [OC|OC]; [right|left; exact OC]. destruct (OP i OC) as (x & X & _ & W). congruence. }
      destruct (push_ok m pa b c _ (encode p) ans V1 FB WR NE LN OS NA) as (m' & pa' & b' & -> & V' & O' & K & W' & D').
      eexists; eexists; eexists; split; [reflexivity|]. rewrite EB at 1. subst i. rewrite lset_split, EC. rewrite <- L2, put_split.
      constructor; cbn [s_cont s_open].
      + apply (inv_perm _ _ _ _ (Permutation_sym (blocks_mid b1 b' b2))). exact V'.
      + apply Forall2_app; [|constructor; [exact O'|]].
        * apply (forall2_keep m m' b1 c1 _ F1) with (2 := K). intros y x Y X. apply in_flat_map; exists y; split; [apply in_or_app; auto|exact X].
        * apply (forall2_keep m m' b2 c2 _ F2) with (2 := K). intros y x Y X. apply in_flat_map; exists y; split; [apply in_or_app; auto|exact X].
      + intros j J; injection J as <-. exists b'. rewrite L2, nth_mid. auto.
    - (* rewrite *)
      destruct (focus _ _ _ _ _ F E) as (b1 & b & b2 & c1 & c2 & EB & EC & L1 & L2 & F1 & FB & F2).
      assert (NB : nth_error bs i = Some b) by (rewrite EB, <- L1; apply nth_mid). rewrite NB. rewrite encode_bytes.
      destruct (OP i OC) as (x & X & D & W). rewrite NB in X; injection X as <-.
      destruct FB as [(-> & _)|(_ & S & N & A & H)]; [exfalso; apply D; reflexivity|].
      unfold bblock in W. destruct (Z.eqb_spec (g_data b) 0) as [Q|_]; [contradiction|]. inversion W as [|? ? W1 W2]; subst.
      unfold rewrite_at. destruct (store_holds (encode p) m (g_data b + Z.of_nat off)) as (m' & -> & M' & H' & B').
      { intros x X. apply W1. cbn [b_addr b_size]. lia. }
      set (bs := b1 ++ b :: b2) in *. eexists; eexists; eexists; split; [reflexivity|]. rewrite EC, <- L2, put_split.
      assert (V1 : inv m pa (bblock b ++ flat_map bblock (b1 ++ b2))) by (apply (inv_perm _ _ _ _ (blocks_mid b1 b b2)); exact V).
      assert (K : keeps m m' (flat_map bblock (b1 ++ b2))).
      { assert (APO := inv_fop _ _ _ V1). unfold bblock at 1 in APO. destruct (Z.eqb_spec (g_data b) 0) as [Q|_]; [contradiction|]. cbn [app] in APO.
        inversion APO as [|? ? AO1 AO2]; subst. intros x a I X. pose proof (proj1 (Forall_forall _ _) AO1 x I) as Q.
        unfold bapart, apart in Q; cbn [b_addr b_size] in Q. apply B'. lia. }
      constructor; cbn [s_cont s_open].
      + exact (inv_store _ _ _ _ M' V).
      + apply Forall2_app; [|constructor].
        * apply (forall2_keep m m' b1 c1 _ F1) with (2 := K). intros y x Y X. apply in_flat_map; exists y; split; [apply in_or_app; auto|exact X].
        * right. split; [exact D|split; [rewrite (splice_length _ _ _ LE); exact S|split; [|split; [exact A|]]]].
          -- intro Q. apply N. apply length_zero_iff_nil. rewrite <- (splice_length _ _ _ LE), Q. reflexivity.
          -- exact (splice_holds (bytes m) (bytes m') _ off _ c LE H H' B').
        * apply (forall2_keep m m' b2 c2 _ F2) with (2 := K). intros y x Y X. apply in_flat_map; exists y; split; [apply in_or_app; auto|exact X].
      + rewrite OC. intros j J; injection J as <-. exists b. split; [exact NB|split; [exact D|]].
        unfold bblock. destruct (Z.eqb_spec (g_data b) 0) as [Q|_]; [contradiction|].
        constructor; [|constructor]. intros x X. unfold writable. rewrite M'. apply W1; exact X.
    - (* clear *)
      destruct (focus _ _ _ _ _ F E) as (b1 & b & b2 & c1 & c2 & EB & EC & L1 & L2 & F1 & FB & F2).
      assert (NB : nth_error bs i = Some b) by (rewrite EB, <- L1; apply nth_mid). rewrite NB.
      assert (V1 : inv m pa (bblock b ++ flat_map bblock (b1 ++ b2))) by (apply (inv_perm _ _ _ _ (blocks_mid b1 b b2)); rewrite <- EB; exact V).
      assert (CL : exists m' pa', clear m pa b = Some (m', pa', gempty) /\ inv m' pa' (flat_map bblock (b1 ++ b2)) /\
                     keeps m m' (flat_map bblock (b1 ++ b2)) /\ (forall mp, In mp (maps m') -> In mp (maps m))).
      { unfold clear, bblock in *. destruct (Z.eqb_spec (g_data b) 0) as [Q|Q]; cbn [negb app] in *.
        - exists m, pa. split; [reflexivity|split; [exact V1|split; [intros x a _ _; reflexivity|auto]]].
        - destruct (free_pa_ok m pa _ (g_data b) V1) as (m' & pa' & -> & V' & K & S).
          pose proof (filter_mid (g_data b) [] (Block (g_data b) (g_alloc b) false) _ (inv_nodup _ _ _ V1) eq_refl) as EF. cbn [app] in EF.
          rewrite EF in V', K. exists m', pa'. auto. }
      destruct CL as (m' & pa' & -> & V' & K & SUB). eexists; eexists; eexists; split; [reflexivity|].
      rewrite EB, EC. rewrite <- L1 at 1. rewrite lset_split. rewrite <- L2, put_split.
      constructor; cbn [s_cont s_open].
      + apply (inv_perm _ _ _ _ (Permutation_sym (blocks_mid b1 gempty b2))). exact V'.
      + apply Forall2_app; [|constructor; [left; auto|]].
        * apply (forall2_keep m m' b1 c1 _ F1) with (2 := K). intros y x Y X. apply in_flat_map; exists y; split; [apply in_or_app; auto|exact X].
        * apply (forall2_keep m m' b2 c2 _ F2) with (2 := K). intros y x Y X. apply in_flat_map; exists y; split; [apply in_or_app; auto|exact X].
      + intros j J. destruct (s_open s) as [j0|] eqn:ES; [|discriminate J]. destruct (Nat.eqb_spec (length c1) j0) as [Q|Q]; [discriminate J|].
        injection J as ->. destruct (OP j eq_refl) as (y & Y & D & W). exists y.
        assert (NY : forall g, nth_error (b1 ++ g :: b2) j = Some y).
        { intro g. rewrite EB in Y. destruct (Nat.lt_ge_cases j (length b1)) as [C|C].
          - rewrite nth_error_app1 in * by lia. exact Y.
          - rewrite nth_error_app2 in * by lia. destruct (j - length b1)%nat eqn:DJ; [exfalso; lia|exact Y]. }
        split; [apply NY|split; [exact D|]].
        assert (IY : In y (b1 ++ b2)).
        { specialize (NY b). destruct (Nat.lt_ge_cases j (length b1)) as [C|C].
          - rewrite nth_error_app1 in NY by lia. apply in_or_app; left. exact (nth_error_In _ _ NY).
          - rewrite nth_error_app2 in NY by lia. destruct (j - length b1)%nat eqn:DJ; [exfalso; lia|]. apply in_or_app; right. cbn [nth_error] in NY. exact (nth_error_In _ _ NY). }
        apply Forall_forall; intros x X. apply (writable_keep m m' pa pa' _ _ x V1 V' SUB); [apply in_flat_map; exists y; auto|].
        exact (proj1 (Forall_forall _ _) W x X).
    - (* SetRE *)
      destruct (focus _ _ _ _ _ F E) as (b1 & b & b2 & c1 & c2 & EB & EC & L1 & L2 & F1 & FB & F2).
      assert (NB : nth_error bs i = Some b) by (rewrite EB, <- L1; apply nth_mid). rewrite NB. unfold set_re.
      destruct (set_pa_ok m pa _ (g_data b) true V) as (m' & pa' & -> & V' & B' & _). eexists; eexists; eexists; split; [reflexivity|].
      constructor; cbn [s_cont s_open]; [exact V'| |discriminate].
      apply (forall2_keep m m' bs _ (flat_map bblock bs) F); [|intros x a _ _; rewrite B'; reflexivity].
      intros y x Y X; apply in_flat_map; eauto.
  Qed.
End Buf.
