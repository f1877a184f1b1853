(** Proofs about MemModel. *)
From Coq Require Import List ZArith Bool Arith Ascii String Lia.
From Verif Require Import ListModel StrModel MemModel MemSpec.
Import ListNotations.
Local Open Scope list_scope.
Local Open Scope Z_scope.
Notation length := List.length.

(** *** numbers and lines *)
Lemma hexs_digit : forall d c, nth_error hexs d = Some c ->
  hexdigit c = Some (Z.of_nat d) /\ isspace c = false /\ Ascii.eqb c "-" = false /\ Ascii.eqb c "+" = false /\ Ascii.eqb c "x" = false /\ Ascii.eqb c "X" = false /\ Ascii.eqb c "010" = false.
Proof.
  intros d c H. do 16 (destruct d as [|d]; [injection H as <-; repeat split; reflexivity|]). destruct d; discriminate.
Qed.
Definition digitlike (c : ascii) : Prop := exists d, nth_error hexs d = Some c.
Lemma numeral_digits s n : hex_numeral s n -> s <> [] /\ Forall digitlike s /\ 0 <= n.
Proof.
  induction 1 as [d c H|s n d c H IH Hd].
  - split; [discriminate|]. split; [repeat constructor; exists d; exact H|lia].
  - destruct IH as (A & B & C). split; [destruct s; discriminate|]. split; [apply Forall_app; split; [exact B|repeat constructor; exists d; exact Hd]|lia].
Qed.
Lemma hexdigits_app : forall s acc r, Forall digitlike s -> hexdigits acc (s ++ r) = hexdigits (fst (hexdigits acc s)) r.
Proof.
  induction s as [|c s IH]; intros acc r F; [reflexivity|]. inversion F as [|? ? [d D] F']; subst. cbn [hexdigits app]. rewrite (proj1 (hexs_digit _ _ D)). apply IH. exact F'.
Qed.
Lemma numeral_value s n : hex_numeral s n -> forall r, hexdigits 0 (s ++ r) = hexdigits n r.
Proof.
  induction 1 as [d c H|s n d c H IH Hd]; intros r.
  - cbn [hexdigits app]. rewrite (proj1 (hexs_digit _ _ H)). f_equal; lia.
  - rewrite <- app_assoc, IH. cbn [hexdigits app]. rewrite (proj1 (hexs_digit _ _ Hd)). reflexivity.
Qed.
Lemma skip_0x_no : forall s r, Forall digitlike s -> s <> [] -> (forall c x, r = c :: x -> Ascii.eqb c "x" = false /\ Ascii.eqb c "X" = false) -> skip_0x (s ++ r) = s ++ r.
Proof.
  intros s r F N R. destruct s as [|c [|x s]]; [congruence| |].
  - cbn [app]. destruct r as [|y r]; [reflexivity|]. cbn [skip_0x]. destruct (R y r eq_refl) as [-> ->]. rewrite andb_false_r. reflexivity.
  - inversion F as [|? ? _ F']; subst. inversion F' as [|? ? [d D] _]; subst. destruct (hexs_digit _ _ D) as (_ & _ & _ & _ & X1 & X2 & _). cbn [app skip_0x]. rewrite X1, X2, andb_false_r. reflexivity.
Qed.
Lemma strtoul_numeral wb s n c r : hex_numeral s n -> n < 2 ^ wb -> hexdigit c = None -> Ascii.eqb c "x" = false -> Ascii.eqb c "X" = false ->
  strtoul wb (s ++ c :: r) = (n, c :: r).
Proof.
  intros H L C X1 X2. destruct (numeral_digits _ _ H) as (N & F & _). pose proof (numeral_value _ _ H (c :: r)) as V. cbn [hexdigits] in V. rewrite C in V.
  assert (SK : skip_0x (s ++ c :: r) = s ++ c :: r) by (apply skip_0x_no; auto; intros ? ? E; injection E as <- _; auto).
  unfold strtoul. destruct s as [|a s]; [congruence|]. inversion F as [|? ? [d D] F']; subst. destruct (hexs_digit _ _ D) as (HD & S1 & S2 & S3 & _).
  cbn [app drop_space] in *. rewrite S1, S2, S3. cbn [orb]. rewrite SK. cbn [is_hex]. rewrite HD, V. destruct (Z.leb_spec (2 ^ wb) n); [lia|]. reflexivity.
Qed.

Lemma getlines_line : forall l t, ~ In "010"%char l -> getlines (l ++ "010"%char :: t) = (l ++ ["010"%char]) :: getlines t.
Proof.
  induction l as [|c l IH]; intros t N; [reflexivity|]. cbn [app getlines]. destruct (Ascii.eqb_spec c "010"); [subst; exfalso; apply N; left; reflexivity|].
  rewrite IH; [reflexivity|]. intros J. apply N. right. exact J.
Qed.
Lemma digit_no_newline s : Forall digitlike s -> ~ In "010"%char s.
Proof.
  intros F J. rewrite Forall_forall in F. destruct (F _ J) as [d D]. destruct (hexs_digit _ _ D) as (_ & _ & _ & _ & _ & _ & E). discriminate.
Qed.
Lemma letter_no (b : bool) c : c <> "010"%char -> letter b c <> "010"%char.
Proof. destruct b; cbn; [auto|discriminate]. Qed.
Lemma line_shape m l : line_of m l -> exists l', l = l' ++ ["010"%char] /\ ~ In "010"%char l'.
Proof.
  intros [lo hi rest H1 H2 H3]. exists (lo ++ ["-"%char] ++ hi ++ [" "; letter (m_r m) "r"; letter (m_w m) "w"; letter (m_x m) "x"]%char ++ rest).
  split; [rewrite <- !app_assoc; reflexivity|]. destruct (numeral_digits _ _ H1) as (_ & F1 & _). destruct (numeral_digits _ _ H2) as (_ & F2 & _).
  intros J. rewrite in_app_iff in J. cbn [app] in J. destruct J as [J|J]; [exact (digit_no_newline _ F1 J)|]. destruct J as [J|J]; [discriminate|].
  rewrite in_app_iff in J. destruct J as [J|J]; [exact (digit_no_newline _ F2 J)|]. destruct J as [J|[J|[J|[J|J]]]]; [discriminate|..|exact (H3 J)]; revert J; apply letter_no; discriminate.
Qed.
Lemma getlines_concat ms ls : Forall2 line_of ms ls -> getlines (List.concat ls) = ls.
Proof.
  induction 1 as [|m l ms ls H _ IH]; [reflexivity|]. destruct (line_shape _ _ H) as (l' & -> & N). cbn [List.concat]. rewrite <- app_assoc. cbn [app]. rewrite getlines_line by exact N. rewrite IH. reflexivity.
Qed.

(** what is read from a line *)
Lemma read_line wb m l : line_of m l -> m_lo m < 2 ^ wb -> m_hi m < 2 ^ wb -> exists e rest,
  strtoul wb l = (m_lo m, e) /\ after_one e = Some rest /\
  exists p, strtoul wb rest = (m_hi m, p) /\ char_at p 1 = Some (letter (m_r m) "r") /\ char_at p 2 = Some (letter (m_w m) "w") /\ char_at p 3 = Some (letter (m_x m) "x").
Proof.
  intros [lo hi r H1 H2 H3] L1 L2. cbn [app]. eexists _, _. split; [apply strtoul_numeral; auto|]. split; [reflexivity|]. eexists. split; [apply strtoul_numeral; auto|]. repeat split.
Qed.
Lemma rights_letters m : (let b := 0 in
        let b := if Ascii.eqb (letter (m_r m) "r") "r" then Z.lor b PROT_READ else b in
        let b := if Ascii.eqb (letter (m_w m) "w") "w" then Z.lor b PROT_WRITE else b in
        if Ascii.eqb (letter (m_x m) "x") "x" then Z.lor b PROT_EXEC else b) = rights_of m.
Proof. destruct m as [lo hi [] [] []]; reflexivity. Qed.

Lemma scan_bits_spec wb addr : forall ms ls, Forall2 line_of ms ls -> (forall m, In m ms -> m_lo m < 2 ^ wb /\ m_hi m < 2 ^ wb) ->
  exists o, scan_bits wb addr ls = Some o /\
    match o with
    | Some b => exists m, In m ms /\ contains m addr /\ b = rights_of m
    | None => forall m, In m ms -> ~ contains m addr
    end.
Proof.
  induction 1 as [|m l ms ls H _ IH]; intros B; [exists None; split; [reflexivity|intros m []]|].
  destruct (B m (or_introl eq_refl)) as [B1 B2]. destruct (read_line wb m l H B1 B2) as (e & rest & E1 & E2 & p & E3 & C1 & C2 & C3).
  cbn [scan_bits]. rewrite E1, E2, E3. destruct (Z.leb_spec (m_lo m) addr); [destruct (Z.ltb_spec addr (m_hi m))|]; cbn [andb].
  - rewrite C1, C2, C3. exists (Some (rights_of m)). split; [cbv zeta; do 2 f_equal; exact (rights_letters m)|]. exists m. unfold contains. split; [left; reflexivity|]. split; [lia|reflexivity].
  - destruct IH as (o & -> & O); [intros; apply B; right; assumption|]. exists o. split; [reflexivity|]. destruct o as [b|]; [destruct O as (m' & I & O); exists m'; split; [right; exact I|exact O]|].
    intros m' [<-|I]; [unfold contains; lia|auto].
  - destruct IH as (o & -> & O); [intros; apply B; right; assumption|]. exists o. split; [reflexivity|]. destruct o as [b|]; [destruct O as (m' & I & O); exists m'; split; [right; exact I|exact O]|].
    intros m' [<-|I]; [unfold contains; lia|auto].
Qed.
Lemma scan_range_spec wb lower upper : forall ms ls, Forall2 line_of ms ls -> (forall m, In m ms -> m_lo m < 2 ^ wb /\ m_hi m < 2 ^ wb) ->
  exists b, scan_range wb lower upper ls = Some b /\ (b = true <-> exists m, In m ms /\ m_lo m <= lower /\ upper <= m_hi m).
Proof.
  induction 1 as [|m l ms ls H _ IH]; intros B; [exists false; split; [reflexivity|split; [discriminate|intros (m & [] & _)]]|].
  destruct (B m (or_introl eq_refl)) as [B1 B2]. destruct (read_line wb m l H B1 B2) as (e & rest & E1 & E2 & p & E3 & _).
  destruct IH as (b & E & O); [intros; apply B; right; assumption|].
  cbn [scan_range]. rewrite E1, E2, E3. destruct (Z.leb_spec (m_lo m) lower); [destruct (Z.leb_spec upper (m_hi m))|]; cbn [andb].
  - exists true. split; [reflexivity|]. split; [intros _; exists m; split; [left; reflexivity|lia]|reflexivity].
  - exists b. split; [exact E|]. rewrite O. split; intros (m' & I & R); [exists m'; split; [right; exact I|exact R]|]. destruct I as [<-|I]; [lia|]. exists m'. auto.
  - exists b. split; [exact E|]. rewrite O. split; intros (m' & I & R); [exists m'; split; [right; exact I|exact R]|]. destruct I as [<-|I]; [lia|]. exists m'. auto.
Qed.

(** *** pages *)
Lemma page_of_mapping lo hi a : lo mod 4096 = 0 -> hi mod 4096 = 0 -> (lo <= a < hi <-> lo <= a / 4096 * 4096 < hi).
Proof.
  intros A B. pose proof (Z.div_mod lo 4096). pose proof (Z.div_mod hi 4096). pose proof (Z.div_mod a 4096). pose proof (Z.mod_pos_bound a 4096).
  rewrite A in *. rewrite B in *. set (x := lo / 4096) in *. set (y := hi / 4096) in *. set (z := a / 4096) in *. lia.
Qed.
Lemma describes_rights wb t mm : describes wb (Some t) mm -> exists ms ls, Forall2 line_of ms ls /\ t = List.concat ls /\
  (forall m, In m ms -> m_lo m < 2 ^ wb /\ m_hi m < 2 ^ wb) /\
  (forall a, match rights mm (a / 4096) with
             | Some b => exists m, In m ms /\ contains m a /\ b = rights_of m
             | None => forall m, In m ms -> ~ contains m a end) /\
  placed wb ms.
Proof.
  intros (ms & (ls & F & E) & P & R). exists ms, ls. split; [exact F|]. split; [exact E|]. split; [intros m I; apply P in I; lia|]. split; [|exact P].
  intros a. specialize (R (a / 4096)). destruct (rights mm (a / 4096)) as [b|].
  - destruct R as (m & I & C & B). exists m. split; [exact I|]. split; [|exact B]. destruct (proj1 P m I) as (_ & _ & A1 & A2). unfold contains in *. apply page_of_mapping; assumption.
  - intros m I C. apply (R m I). destruct (proj1 P m I) as (_ & _ & A1 & A2). unfold contains in *. exact (proj1 (page_of_mapping _ _ a A1 A2) C).
Qed.
Lemma one_mapping wb ms a m m' : placed wb ms -> In m ms -> In m' ms -> contains m a -> contains m' a -> m = m'.
Proof.
  intros [_ O] I I' C C'. unfold contains in *. induction O as [|x l F O IH]; [destruct I|]. rewrite Forall_forall in F.
  destruct I as [<-|I], I' as [<-|I']; auto; [specialize (F _ I')|specialize (F _ I)]; lia.
Qed.
Lemma GetPageBits_spec wb maps mm addr : describes wb maps mm ->
  GetPageBits wb maps addr = Some (match maps with Some _ => rights mm (addr / 4096) | None => None end).
Proof.
  intros D. destruct maps as [t|]; [|reflexivity]. destruct (describes_rights _ _ _ D) as (ms & ls & F & -> & B & R & P).
  cbn [GetPageBits]. rewrite (getlines_concat _ _ F). destruct (scan_bits_spec wb addr ms ls F B) as (o & -> & O). f_equal. specialize (R addr).
  destruct o as [b|], (rights mm (addr / 4096)) as [b'|]; auto.
  - destruct O as (m & I & C & ->), R as (m' & I' & C' & ->). rewrite (one_mapping _ _ _ _ _ P I I' C C'). reflexivity.
  - destruct O as (m & I & C & _). exfalso. exact (R m I C).
  - destruct R as (m & I & C & _). exfalso. exact (O m I C).
Qed.

Lemma lalign a : SH_LALIGN a = a / 4096 * 4096.
Proof.
  unfold SH_LALIGN. change (PAGESIZE - 1) with (Z.ones 12). rewrite <- Z.ldiff_land, Z.ldiff_ones_r by lia. rewrite Z.shiftl_mul_pow2, Z.shiftr_div_pow2 by lia. reflexivity.
Qed.
Lemma existsb_pages p start len : start mod 4096 = 0 -> 0 <= len ->
  (existsb (Z.eqb p) (page_list start len) = true <-> start / 4096 * 4096 <= p * 4096 < start + len).
Proof.
  intros A L. unfold page_list, PAGESIZE. rewrite existsb_exists. pose proof (Z.div_mod start 4096 ltac:(lia)) as E. rewrite A in E. set (s := start / 4096) in *.
  assert (N : 0 <= (len + 4096 - 1) / 4096) by (apply Z.div_pos; lia). pose proof (Z.div_mod (len + 4096 - 1) 4096 ltac:(lia)) as D. pose proof (Z.mod_pos_bound (len + 4096 - 1) 4096 ltac:(lia)) as M.
  set (n := (len + 4096 - 1) / 4096) in *. split.
  - intros (x & I & X). apply Z.eqb_eq in X. subst x. apply in_map_iff in I. destruct I as (i & <- & I). apply in_seq in I. lia.
  - intros R. exists p. split; [|apply Z.eqb_refl]. apply in_map_iff. exists (Z.to_nat (p - s)). split; [lia|]. apply in_seq. lia.
Qed.
(** the pages that SetMemAccess asks for are those of the bytes *)
Lemma touched_pages p addr len : 0 < len ->
  (existsb (Z.eqb p) (page_list (SH_LALIGN addr) (len + SH_LALDIF addr)) = true <-> exists x, addr <= x < addr + len /\ x / 4096 = p).
Proof.
  intros L. rewrite lalign. unfold SH_LALDIF, PAGESIZE. pose proof (Z.mod_pos_bound addr 4096 ltac:(lia)) as M. pose proof (Z.div_mod addr 4096 ltac:(lia)) as D.
  rewrite existsb_pages by (try (rewrite Z.mod_mul; lia); lia). rewrite Z.div_mul by lia. split.
  - intros [A B]. destruct (Z_le_gt_dec (p * 4096) addr) as [G|G].
    + exists addr. split; [lia|]. symmetry. apply (Z.div_unique addr 4096 p (addr - p * 4096)); [|lia]. left. lia.
    + exists (p * 4096). split; [lia|]. apply Z.div_mul. lia.
  - intros (x & X & <-). pose proof (Z.div_mod x 4096 ltac:(lia)). pose proof (Z.mod_pos_bound x 4096 ltac:(lia)). assert (addr / 4096 <= x / 4096) by (apply Z.div_le_mono; lia). lia.
Qed.

(** an aligned slot lies within one page *)
Lemma aligned_page k a x : (k = 4 \/ k = 8) -> a mod k = 0 -> a <= x < a + k -> x / 4096 = a / 4096.
Proof.
  intros K A X. symmetry. apply (Z.div_unique x 4096 (a / 4096) (x - a / 4096 * 4096)); [|lia]. left.
  pose proof (Z.div_mod a 4096 ltac:(lia)). pose proof (Z.mod_pos_bound a 4096 ltac:(lia)) as M. set (q := a / 4096) in *. set (r := a mod 4096) in *.
  assert (R : r mod k = 0). { replace r with (a - q * 4096) by lia. rewrite Zminus_mod, A. destruct K as [-> | ->]; [replace (q * 4096) with (q * 1024 * 4) by lia|replace (q * 4096) with (q * 512 * 8) by lia]; rewrite Z.mod_mul by lia; reflexivity. }
  assert (r + k <= 4096). { destruct K as [-> | ->]; [pose proof (Z.div_mod r 4 ltac:(lia))|pose proof (Z.div_mod r 8 ltac:(lia))]; lia. }
  lia.
Qed.
