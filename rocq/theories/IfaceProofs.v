From Coq Require Import List ZArith Ascii Bool Arith Lia.
From Verif Require Import Base ListModel StrModel StrProofs IfaceModel IfaceSpec.
Import ListNotations.
Local Open Scope list_scope.
Local Open Scope nat_scope.

Lemma digit_cases c : In c digits -> exists k, k < 10 /\ nat_of_ascii c = 48 + k.
Proof.
  unfold digits. cbn [In]. intros H. exists (nat_of_ascii c - 48). repeat destruct H as [<-|H]; [..|destruct H]; (split; [apply Nat.ltb_lt|]; reflexivity).
Qed.
Lemma isdigit_spec c : isdigit c = true <-> In c digits.
Proof.
  split.
  - unfold isdigit. intros H. apply andb_true_iff in H. destruct H as [A B]. apply Nat.leb_le in A, B.
    rewrite <- (ascii_nat_embedding c). set (n := nat_of_ascii c) in *. clearbody n.
    assert (n = 48 \/ n = 49 \/ n = 50 \/ n = 51 \/ n = 52 \/ n = 53 \/ n = 54 \/ n = 55 \/ n = 56 \/ n = 57) by lia.
    repeat (destruct H as [->|H]; [cbn; tauto|]). subst n. cbn. tauto.
  - intros H. unfold digits in H. cbn [In] in H. repeat destruct H as [<-|H]; [..|destruct H]; reflexivity.
Qed.
Lemma isdigit_false c : isdigit c = false <-> ~ In c digits.
Proof. rewrite <- isdigit_spec. destruct (isdigit c); split; intros; try discriminate; try tauto; exfalso; auto. Qed.
Lemma NUL_not_digit : ~ In NUL digits.
Proof. rewrite <- isdigit_false. reflexivity. Qed.

Lemma scan_digits q c d : ~ In c digits -> Forall (fun c => In c digits) d ->
  scan ((q ++ [c]) ++ d) (length ((q ++ [c]) ++ d)) = Some (length q).
Proof.
  intros N F. revert F. induction d as [|x d IH] using rev_ind; intros F.
  - rewrite app_nil_r, app_length. cbn [length]. rewrite Nat.add_1_r. cbn [scan]. rewrite app_nth2 by lia. rewrite Nat.sub_diag. cbn [nth].
    apply isdigit_false in N. rewrite N. reflexivity.
  - apply Forall_app in F. destruct F as [F Fx]. rewrite app_assoc, (app_length (_ ++ d)). cbn [length]. rewrite Nat.add_1_r. cbn [scan].
    rewrite app_nth2 by lia. rewrite Nat.sub_diag. cbn [nth]. inversion Fx; subst. apply isdigit_spec in H1. rewrite H1.
    assert (X : forall n, n <= length ((q ++ [c]) ++ d) -> scan (((q ++ [c]) ++ d) ++ [x]) n = scan ((q ++ [c]) ++ d) n).
    { induction n as [|n IHn]; intros L; [reflexivity|]. cbn [scan]. rewrite app_nth1 by lia. rewrite IHn by lia. reflexivity. }
    rewrite X by lia. apply IH. exact F.
Qed.

Lemma dig_digits z : (0 <= z < 10)%Z -> In (dig z) digits /\ dig z = nth (Z.to_nat z) digits "?"%char /\ (Z.of_nat (nat_of_ascii (dig z)) - 48 = z)%Z.
Proof.
  intros H. assert (z = 0 \/ z = 1 \/ z = 2 \/ z = 3 \/ z = 4 \/ z = 5 \/ z = 6 \/ z = 7 \/ z = 8 \/ z = 9)%Z as X by lia.
  repeat (destruct X as [->|X]; [repeat split; [cbn; tauto]|]). subst z. repeat split. cbn; tauto.
Qed.
Lemma fmt03_small v : (0 <= v < 1000)%Z -> fmt03 v = ver v.
Proof.
  intros H. unfold fmt03. destruct (v <? 0)%Z eqn:E; [lia|]. unfold ver.
  assert (A0 : (v / 100 = v / 10 / 10)%Z) by (rewrite Z.div_div by lia; reflexivity).
  pose proof (Z.div_mod v 10 ltac:(lia)) as D1. pose proof (Z.mod_pos_bound v 10 ltac:(lia)) as M1.
  pose proof (Z.div_mod (v / 10) 10 ltac:(lia)) as D2. pose proof (Z.mod_pos_bound (v / 10) 10 ltac:(lia)) as M2.
  rewrite A0. set (v1 := (v / 10)%Z) in *. set (m1 := (v mod 10)%Z) in *. set (v2 := (v1 / 10)%Z) in *. set (m2 := (v1 mod 10)%Z) in *.
  assert (R2 : (0 <= v2 < 10)%Z) by lia.
  destruct (dig_digits v2 R2) as (_ & G2 & _). destruct (dig_digits m2 M2) as (_ & G1 & _). destruct (dig_digits m1 M1) as (_ & G0 & _).
  rewrite <- G2, <- G1, <- G0.
  cbn [dec]. destruct (v <? 10)%Z eqn:E1.
  - apply Z.ltb_lt in E1. assert (v2 = 0 /\ m2 = 0 /\ m1 = v)%Z as (Q1 & Q2 & Q3) by lia. rewrite Q1, Q2, Q3. reflexivity.
  - apply Z.ltb_ge in E1. fold v1. destruct (v1 <? 10)%Z eqn:E2.
    + apply Z.ltb_lt in E2. assert (v2 = 0 /\ m2 = v1)%Z as (Q1 & Q2) by lia. rewrite Q1, Q2. reflexivity.
    + fold v2. destruct (v2 <? 10)%Z eqn:E3; [|apply Z.ltb_ge in E3; lia]. reflexivity.
Qed.
Lemma ver_numeral v : (0 <= v < 1000)%Z -> numeral (ver v) /\ length (ver v) = 3 /\ value (ver v) = v.
Proof.
  intros H. unfold ver.
  assert (A0 : (v / 100 = v / 10 / 10)%Z) by (rewrite Z.div_div by lia; reflexivity).
  pose proof (Z.div_mod v 10 ltac:(lia)) as D1. pose proof (Z.mod_pos_bound v 10 ltac:(lia)) as M1.
  pose proof (Z.div_mod (v / 10) 10 ltac:(lia)) as D2. pose proof (Z.mod_pos_bound (v / 10) 10 ltac:(lia)) as M2.
  rewrite A0. set (v1 := (v / 10)%Z) in *. set (m1 := (v mod 10)%Z) in *. set (v2 := (v1 / 10)%Z) in *. set (m2 := (v1 mod 10)%Z) in *.
  assert (R2 : (0 <= v2 < 10)%Z) by lia.
  destruct (dig_digits v2 R2) as (I2 & G2 & V2). destruct (dig_digits m2 M2) as (I1 & G1 & V1). destruct (dig_digits m1 M1) as (I0 & G0 & V0).
  rewrite <- G2, <- G1, <- G0. split; [|split].
  - split; [discriminate|]. apply Forall_forall. intros x [<-|[<-|[<-|[]]]]; assumption.
  - reflexivity.
  - unfold value. cbn [fold_left]. rewrite V2, V1, V0. lia.
Qed.

(** the decimal digits never contain a terminator *)
Lemma dec_digits fuel : forall z acc, (0 <= z)%Z -> Forall (fun c => In c digits) acc ->
  Forall (fun c => In c digits) (dec fuel z acc).
Proof.
  induction fuel as [|f IH]; intros z acc Z0 F; [exact F|]. cbn [dec]. destruct (z <? 10)%Z eqn:E.
  - constructor; [|exact F]. apply dig_digits. lia.
  - apply IH; [apply Z.div_pos; lia|]. constructor; [|exact F]. apply dig_digits. apply Z.mod_pos_bound. lia.
Qed.
Lemma dec_length fuel : forall z acc, 0 < fuel -> length acc < length (dec fuel z acc).
Proof.
  induction fuel as [|f IH]; intros z acc L; [lia|]. cbn [dec]. destruct (z <? 10)%Z; [cbn [length]; lia|]. destruct f; [cbn [dec length]; lia|].
  specialize (IH (z / 10)%Z (dig (z mod 10) :: acc) ltac:(lia)). cbn [length] in IH. lia.
Qed.
Lemma fmt03_digits v : (0 <= v)%Z -> Forall (fun c => In c digits) (fmt03 v) /\ 3 <= length (fmt03 v).
Proof.
  intros H. unfold fmt03. destruct (v <? 0)%Z eqn:E; [lia|]. unfold zeros. split.
  - apply Forall_app. split; [|apply dec_digits; [lia|constructor]]. apply Forall_forall. intros x I. apply repeat_spec in I. subst x. cbn; tauto.
  - rewrite app_length, repeat_length. lia.
Qed.
Lemma text3 v : (0 <= v)%Z -> Forall (fun c => In c digits) (firstn 3 (fmt03 v)) /\ length (firstn 3 (fmt03 v)) = 3.
Proof.
  intros H. destruct (fmt03_digits v H) as [F L]. split; [|rewrite firstn_length; lia].
  rewrite Forall_forall in *. intros x I. apply F. rewrite <- (firstn_skipn 3 (fmt03 v)). apply in_or_app. left. exact I.
Qed.
Lemma value_nonneg d : Forall (fun c => In c digits) d -> (0 <= value d)%Z.
Proof.
  intros F. unfold value. assert (X : forall v, (0 <= v)%Z -> (0 <= fold_left (fun v c => 10 * v + (Z.of_nat (nat_of_ascii c) - 48)) d v)%Z).
  { induction F as [|c d I F IH]; intros v V; [exact V|]. cbn [fold_left]. apply IH. apply digit_cases in I. destruct I as (k & K & ->). lia. }
  apply X. lia.
Qed.

Lemma digits_no_NUL d : Forall (fun c => In c digits) d -> ~ In NUL d.
Proof. rewrite Forall_forall. intros F I. apply NUL_not_digit. apply F. exact I. Qed.

(** What FormatIface does to a base name with a version. *)
Lemma FormatIface_spec b p d maxlength : cstr b = Some (p ++ d) -> base p -> numeral d -> (value d < INT_MAX)%Z ->
  length (p ++ d) < maxlength -> length p + 4 <= length b ->
  FormatIface b maxlength =
    Some (p ++ firstn 3 (fmt03 (value d + 1)) ++ NUL :: skipn (length p + 4) b, (value d + 1)%Z).
Proof.
  intros C (q & c & E & N) (D0 & D) V M L. unfold FormatIface. rewrite C. cbv zeta.
  assert (SC : scan (p ++ d) (length (p ++ d)) = Some (length q)) by (rewrite E; apply scan_digits; assumption).
  assert (P : length p = S (length q)) by (rewrite E, app_length; cbn [length]; lia).
  assert (NL : not_last (Some (length q)) (length (p ++ d)) = true).
  { cbn [not_last]. rewrite app_length, P. destruct d; [contradiction|]. cbn [length]. apply negb_true_iff, Nat.eqb_neq. lia. }
  rewrite SC, NL. cbn [andb negb orb].
  destruct (Nat.leb_spec maxlength (length (p ++ d))) as [X|_]; [lia|].
  assert (SK : skipn (S (length q)) (p ++ d) = d).
  { rewrite E. replace (S (length q)) with (length (q ++ [c])) by (rewrite app_length; cbn [length]; lia). rewrite skipn_app, skipn_all, Nat.sub_diag. reflexivity. }
  cbn [orb]. rewrite SK. unfold atoi_digits. fold (value d). destruct (value d <=? INT_MAX)%Z eqn:VI; [|apply Z.leb_gt in VI; lia].
  destruct (value d =? INT_MAX)%Z eqn:VE; [apply Z.eqb_eq in VE; lia|].
  destruct (text3 (value d + 1)) as [_ T]; [pose proof (value_nonneg d D); lia|].
  unfold put, snprintf3. rewrite app_length, T. cbn [length]. rewrite <- P.
  destruct (Nat.leb_spec (length p + (3 + 1)) (length b)) as [_|X]; [|lia].
  apply cstr_some in C. destruct C as (t & -> & _). f_equal. f_equal.
  rewrite <- app_assoc, firstn_app, Nat.sub_diag, firstn_all. cbn [firstn]. rewrite app_nil_r, <- app_assoc. cbn [app]. reflexivity.
Qed.

Definition text (v : Z) : str := firstn 3 (fmt03 v).
Lemma text_ver v : (0 <= v < 1000)%Z -> text v = ver v.
Proof. intros H. unfold text. rewrite fmt03_small by exact H. reflexivity. Qed.
Lemma text_facts v : (0 <= v)%Z -> numeral (text v) /\ length (text v) = 3 /\ ~ In NUL (text v).
Proof.
  intros H. destruct (text3 v H) as [F L]. unfold text. split; [|split; [exact L|apply digits_no_NUL; exact F]].
  split; [|exact F]. intros E. rewrite E in L. discriminate.
Qed.
Lemma base_length p : base p -> 0 < length p.
Proof. intros (q & c & -> & _). rewrite app_length. cbn [length]. lia. Qed.

Lemma FormatIface_step b p d len : cstr b = Some (p ++ d) -> base p -> numeral d -> (value d < INT_MAX)%Z ->
  length (p ++ d) <= len -> length p + 4 <= length b ->
  exists b', FormatIface b (len + 1) = Some (b', (value d + 1)%Z) /\
    cstr b' = Some (p ++ text (value d + 1)) /\ length b' = length b.
Proof.
  intros C B D V L1 L2. eexists. split; [apply FormatIface_spec; [exact C|exact B|exact D|exact V|rewrite Nat.add_1_r; apply Nat.lt_succ_r; exact L1|exact L2]|].
  assert (V0 : (0 <= value d)%Z) by (apply value_nonneg; apply D).
  destruct (text_facts (value d + 1) ltac:(lia)) as (_ & T & NN). split.
  - rewrite app_assoc. apply cstr_intro. intros I. apply in_app_or in I. destruct I as [I|I]; [|exact (NN I)].
    apply cstr_some in C. destruct C as (t & _ & X). apply X. apply in_or_app. left. exact I.
  - fold (text (value d + 1)). rewrite !app_length, T. cbn [length]. rewrite skipn_length. lia.
Qed.

Section Search.
Variable ptr : Type.
Variable fn : list str -> str -> option ptr.
Notation finish x := (let '(r, h) := x in Done r h).

Lemma loop_stop f b len m v asked s : cstr b = Some s -> (v > m)%Z ->
  search_loop ptr fn (S f) b len m v asked = finish (first_answer ptr fn asked [s]).
Proof.
  intros C V. cbn [search_loop first_answer]. rewrite C. destruct (fn asked s); [reflexivity|].
  assert (E : (v >? m)%Z = true) by lia. rewrite E. reflexivity.
Qed.

Lemma loop_run p len m : base p -> length p + 3 <= len -> len <= 252 -> (m <= 999)%Z ->
  forall k v b asked fuel, (0 < v)%Z -> (v + Z.of_nat k = m + 1)%Z -> k < fuel ->
  length b = 256 -> cstr b = Some (p ++ text v) ->
  search_loop ptr fn fuel b len m v asked =
  finish (first_answer ptr fn asked (map (fun v => p ++ text v) (upfrom v (S k)))).
Proof.
  intros B L1 L2 M. induction k as [|k IH]; intros v b asked fuel V K F LB C.
  - destruct fuel as [|fuel]; [lia|]. rewrite (loop_stop _ _ _ _ _ _ _ C) by lia. reflexivity.
  - destruct fuel as [|fuel]; [lia|]. cbn [search_loop]. rewrite C. cbn [upfrom map first_answer].
    destruct (fn asked (p ++ text v)); [reflexivity|].
    assert (E : (v >? m)%Z = false) by lia. rewrite E.
    assert (VR : (0 <= v < 1000)%Z) by lia. destruct (ver_numeral v VR) as (N & N3 & NV). rewrite (text_ver v VR) in C.
    destruct (FormatIface_step b p (ver v) len) as (b' & Fm & C' & LB').
    + exact C.
    + exact B.
    + exact N.
    + rewrite NV. unfold INT_MAX. lia.
    + rewrite app_length, N3. lia.
    + lia.
    + rewrite Fm, NV. rewrite NV in C'. destruct (v + 1 =? 0)%Z eqn:Q; [apply Z.eqb_eq in Q; lia|].
      rewrite (IH (v + 1)%Z b' _ fuel ltac:(lia) ltac:(lia) ltac:(lia) ltac:(lia) C'). rewrite (text_ver v VR). reflexivity.
Qed.

Lemma store_ok g s : length g = 256 -> length s <= 252 -> ~ In NUL s ->
  exists b, store_str g s = Some b /\ cstr b = Some s /\ length b = 256.
Proof.
  intros G L N. unfold store_str. destruct (Nat.leb_spec (length s + 1) (length g)) as [_|X]; [|lia]. eexists. split; [reflexivity|]. split.
  - apply (cstr_intro s); exact N.
  - rewrite app_length. cbn [app length]. rewrite skipn_length. lia.
Qed.

Lemma search_spec g p d max : length g = 256 -> base p -> numeral d -> 3 <= length d -> ~ In NUL p ->
  length (p ++ d) <= 252 -> (value d < INT_MAX)%Z -> (0 <= max)%Z ->
  forall fuel, Z.to_nat (Z.max (value d) (Z.min max 999)) + 2 <= fuel ->
  InterfaceSearch ptr fn fuel g (p ++ d) max =
  finish (first_answer ptr fn [] ((p ++ d) :: map (fun v => p ++ text v)
            (upfrom (value d + 1) (Z.to_nat (Z.max (value d) (Z.min max 999) + 1 - value d))))).
Proof.
  intros G B D D3 NP L V M fuel F. assert (V0 : (0 <= value d)%Z) by (apply value_nonneg; apply D).
  assert (NN : ~ In NUL (p ++ d)).
  { intros I. apply in_app_or in I. destruct I as [I|I]; [exact (NP I)|]. revert I. apply digits_no_NUL. apply D. }
  unfold InterfaceSearch. destruct (Nat.ltb_spec 256 (length (p ++ d) + 4)) as [X|_]; [lia|].
  destruct (store_ok g (p ++ d) G L NN) as (b & -> & C & LB).
  assert (ME : (if (max >? 999)%Z then 999%Z else max) = Z.min max 999) by (destruct (Z.gtb_spec max 999); lia). rewrite ME.
  set (m := Z.min max 999) in *. destruct fuel as [|fuel]; [lia|]. cbn [search_loop first_answer]. rewrite C.
  destruct (fn [] (p ++ d)); [reflexivity|]. assert (E0 : (0 >? m)%Z = false) by lia. rewrite E0.
  assert (LP : length (p ++ d) = length p + length d) by apply app_length.
  destruct (FormatIface_step b p d (length (p ++ d)) C B D V ltac:(lia) ltac:(lia)) as (b' & Fm & C' & LB').
  rewrite Fm. destruct (value d + 1 =? 0)%Z eqn:Q; [apply Z.eqb_eq in Q; lia|].
  destruct (Z.le_gt_cases (value d) m) as [Le|Gt].
  - rewrite (loop_run p (length (p ++ d)) m B ltac:(lia) ltac:(lia) ltac:(lia) (Z.to_nat (m - value d)) (value d + 1)%Z b' _ fuel
               ltac:(lia) ltac:(lia) ltac:(lia) ltac:(lia) C').
    replace (Z.to_nat (Z.max (value d) m + 1 - value d)) with (S (Z.to_nat (m - value d))) by lia. reflexivity.
  - replace (Z.to_nat (Z.max (value d) m + 1 - value d)) with 1 by lia. cbn [upfrom map].
    destruct fuel as [|fuel]; [lia|]. apply loop_stop; [exact C'|lia].
Qed.

Lemma search_negative g s max fuel : length g = 256 -> length s <= 252 -> ~ In NUL s -> (max < 0)%Z -> 0 < fuel ->
  InterfaceSearch ptr fn fuel g s max = finish (first_answer ptr fn [] [s]).
Proof.
  intros G L N M F. unfold InterfaceSearch. destruct (Nat.ltb_spec 256 (length s + 4)) as [X|_]; [lia|].
  destruct (store_ok g s G L N) as (b & -> & C & LB). destruct fuel; [lia|]. apply loop_stop; [exact C|]. destruct (Z.gtb_spec max 999); lia.
Qed.

(** A name without a version. *)
Lemma FormatIface_stuck b p maxlength : cstr b = Some p -> base p -> maxlength <= length p + 3 ->
  FormatIface b maxlength = Some (b, (-1)%Z).
Proof.
  intros C (q & c & E & N) M. unfold FormatIface. rewrite C. cbv zeta.
  assert (SC : scan p (length p) = Some (length q)).
  { pose proof (scan_digits q c [] N (Forall_nil _)) as X. rewrite app_nil_r in X. rewrite E. exact X. }
  rewrite SC. assert (NL : not_last (Some (length q)) (length p) = false).
  { cbn [not_last]. rewrite E, app_length. cbn [length]. apply negb_false_iff, Nat.eqb_eq. lia. }
  rewrite NL. cbn [negb andb orb]. destruct (Nat.leb_spec maxlength (length p + 3)); [reflexivity|lia].
Qed.
Lemma loop_stuck b p m : cstr b = Some p -> base p -> (forall h n, fn h n = None) -> (-1 <= m)%Z ->
  forall fuel num asked, (num <= m)%Z -> search_loop ptr fn fuel b (length p) m num asked = Running.
Proof.
  intros C B F M. induction fuel as [|f IH]; intros num asked Nm; [reflexivity|]. cbn [search_loop]. rewrite C, F.
  assert (E : (num >? m)%Z = false) by lia. rewrite E. rewrite (FormatIface_stuck b p) by (auto; lia). cbn [Z.eqb]. apply IH. exact M.
Qed.
End Search.

(** VInterfaceMatch *)
Lemma strip_digits d : forall pre rest k, Forall (fun c => In c digits) d -> k + length d <= 4 ->
  strip (pre ++ d ++ rest) (length pre + length d) k =
  strip (pre ++ repeat NUL (length d) ++ rest) (length pre) (k + length d).
Proof.
  induction d as [|x d IH] using rev_ind; intros pre rest k F L.
  - cbn [repeat length app]. rewrite !Nat.add_0_r. reflexivity.
  - rewrite app_length in *. cbn [length] in *. apply Forall_app in F. destruct F as [F Fx]. inversion Fx as [|? ? Ix _]; subst.
    rewrite <- app_assoc. cbn [app]. replace (length pre + (length d + 1)) with (S (length pre + length d)) by lia. cbn [strip].
    rewrite app_assoc, nth_error_app2 by (rewrite app_length; lia). rewrite app_length, Nat.sub_diag. cbn [nth_error].
    apply isdigit_spec in Ix. rewrite Ix. destruct (Nat.leb_spec k 3) as [_|X]; [|lia]. cbn [andb].
    rewrite <- app_length, poke_app. rewrite app_length, <- app_assoc, (IH pre (NUL :: rest) (S k) F ltac:(lia)).
    f_equal; [|lia]. f_equal. replace (length d + 1) with (S (length d)) by lia. rewrite <- (Nat.add_1_r (length d)), repeat_app, <- app_assoc. reflexivity.
Qed.
Lemma strip_stop b q c t k : b = (q ++ [c]) ++ t -> ~ In c digits -> strip b (length (q ++ [c])) k = Some (b, k).
Proof.
  intros -> N. rewrite app_length. cbn [length]. rewrite Nat.add_1_r. cbn [strip]. rewrite <- app_assoc, nth_error_app2 by lia. rewrite Nat.sub_diag.
  cbn [app nth_error]. apply isdigit_false in N. rewrite N. reflexivity.
Qed.
Lemma strip_base p t k : base p -> strip (p ++ t) (length p) k = Some (p ++ t, k).
Proof. intros (q & c & -> & N). apply (strip_stop _ q c t); [reflexivity|exact N]. Qed.
Lemma strip_full pre x rest : In x digits -> strip (pre ++ x :: rest) (S (length pre)) 4 = Some (pre ++ x :: rest, 4).
Proof.
  intros N. cbn [strip]. rewrite nth_error_app2 by lia. rewrite Nat.sub_diag. cbn [nth_error].
  apply isdigit_spec in N. rewrite N. reflexivity.
Qed.

Lemma match_three g p d min : length g = 256 -> base p -> numeral d -> length d = 3 -> ~ In NUL p ->
  length (p ++ d) <= 252 -> (0 <= min)%Z ->
  match_name g (p ++ d) min = Some (p ++ text (if (min =? 0)%Z then 1 else min)).
Proof.
  intros G (q & c & E & N) (_ & D) D3 NP L M. unfold match_name.
  assert (NN : ~ In NUL (p ++ d)).
  { intros I. apply in_app_or in I. destruct I as [I|I]; [exact (NP I)|]. revert I. apply digits_no_NUL. exact D. }
  unfold store_str at 1. destruct (Nat.leb_spec (length (p ++ d) + 1) (length g)) as [_|X]; [|lia].
  destruct (min =? -1)%Z eqn:M1; [apply Z.eqb_eq in M1; lia|].
  set (r := [NUL] ++ skipn (length (p ++ d) + 1) g) in *. rewrite <- app_assoc, app_length, strip_digits by (auto; lia).
  rewrite D3. cbn [repeat]. rewrite E at 1 2. rewrite (strip_stop _ q c _ _ eq_refl N). rewrite <- E. cbn [Nat.add Nat.eqb negb].
  change ([NUL; NUL; NUL] ++ r) with (NUL :: [NUL; NUL] ++ r). rewrite (cstr_intro p) by exact NP. set (v := if (min =? 0)%Z then 1%Z else min).
  assert (V : (0 <= v)%Z) by (unfold v; destruct (min =? 0)%Z; lia).
  destruct (text_facts v V) as (_ & T & NT). unfold put, snprintf3. fold (text v). rewrite (app_length (text v)), T. cbn [length].
  destruct (Nat.leb_spec (length p + (3 + 1)) (length (p ++ NUL :: [NUL; NUL] ++ r))) as [_|X].
  - rewrite firstn_app, Nat.sub_diag, firstn_all. cbn [firstn]. rewrite app_nil_r, <- app_assoc, app_assoc. cbn [app]. apply cstr_intro.
    intros I. apply in_app_or in I. destruct I as [I|I]; [exact (NP I)|exact (NT I)].
  - exfalso. revert X. unfold r. rewrite app_length. cbn [length app]. lia.
Qed.
(** any other number of digits: the name is used as it is *)
Lemma match_other g p d min : length g = 256 -> base p -> Forall (fun c => In c digits) d -> length d <> 3 -> ~ In NUL p ->
  length (p ++ d) <= 252 -> match_name g (p ++ d) min = Some (p ++ d).
Proof.
  intros G B D D3 NP L. unfold match_name.
  assert (NN : ~ In NUL (p ++ d)).
  { intros I. apply in_app_or in I. destruct I as [I|I]; [exact (NP I)|]. revert I. apply digits_no_NUL. exact D. }
  destruct (store_ok g (p ++ d) G L NN) as (b & SB & C & LB). rewrite SB. destruct (min =? -1)%Z; [exact C|].
  assert (BE : exists r, b = p ++ d ++ r /\ 0 < length r).
  { unfold store_str in SB. destruct (length (p ++ d) + 1 <=? length g); [|discriminate]. injection SB as <-. eexists. rewrite <- app_assoc. split; [reflexivity|].
    rewrite app_length. cbn [length]. lia. }
  destruct BE as (r & -> & R0).
  assert (ST : exists b' k, strip (p ++ d ++ r) (length (p ++ d)) 0 = Some (b', k) /\ k <> 3 /\ length b' = 256).
  { destruct (le_lt_dec (length d) 3) as [S|S].
    - rewrite (app_length p), strip_digits by (auto; lia). rewrite (strip_base p _ _ B). eexists _, _. split; [reflexivity|]. split; [lia|]. rewrite <- LB. rewrite !app_length, repeat_length. reflexivity.
    - assert (Sp : exists d1 d2, d = d1 ++ d2 /\ length d2 = 4).
      { exists (firstn (length d - 4) d), (skipn (length d - 4) d). rewrite firstn_skipn, skipn_length. split; [reflexivity|lia]. }
      destruct Sp as (d1 & d2 & -> & L2). apply Forall_app in D. destruct D as [D1 D2].
      replace (p ++ (d1 ++ d2) ++ r) with ((p ++ d1) ++ d2 ++ r) by (rewrite <- !app_assoc; reflexivity).
      replace (length (p ++ d1 ++ d2)) with (length (p ++ d1) + length d2) by (rewrite !app_length; lia).
      rewrite strip_digits by (auto; lia). rewrite L2. cbn [Nat.add].
      destruct d1 as [|y d1] using rev_ind.
      + rewrite app_nil_r. rewrite (strip_base p _ _ B). eexists _, _. split; [reflexivity|]. split; [lia|].
        rewrite <- LB. rewrite !app_length, repeat_length, L2. reflexivity.
      + clear IHd1. apply Forall_app in D1. destruct D1 as [_ Dy]. inversion Dy; subst.
        rewrite (app_assoc p d1 [y]), app_length. cbn [length]. rewrite Nat.add_1_r. rewrite <- (app_assoc _ [y]). cbn [app].
        rewrite (strip_full (_ ++ d1) y) by assumption. eexists _, _. split; [reflexivity|]. split; [lia|].
        rewrite <- LB, !app_length. cbn [length]. rewrite ?app_length, repeat_length. cbn [length]. lia. }
  destruct ST as (b' & k & -> & K & LB'). destruct (Nat.eqb_spec k 3) as [X|_]; [contradiction|]. cbn [negb].
  destruct (store_ok b' (p ++ d) LB' L NN) as (b2 & -> & C2 & _). exact C2.
Qed.

Lemma nth_error_skipn_add {A} (l : list A) : forall n i, nth_error (skipn n l) i = nth_error l (n + i).
Proof. induction l as [|x l IH]; intros [|n] i; cbn [skipn Nat.add nth_error]; auto. destruct i; reflexivity. Qed.
Lemma nth_error_firstn_lt {A} (l : list A) : forall n i, i < n -> nth_error (firstn n l) i = nth_error l i.
Proof.
  induction l as [|x l IH]; intros [|n] [|i] L; cbn [firstn nth_error]; auto; try lia. apply IH. lia.
Qed.
Lemma firstn_S_nth {A} (l : list A) : forall n x, nth_error l n = Some x -> firstn (S n) l = firstn n l ++ [x].
Proof.
  induction l as [|y l IH]; intros [|n] x E; try discriminate; [injection E as ->; reflexivity|]. cbn [nth_error] in E. cbn [firstn app]. f_equal. apply IH. exact E.
Qed.
