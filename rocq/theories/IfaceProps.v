(** C39, C40: interface names and interface search. *)
From Coq Require Import List ZArith Ascii String Bool Arith Lia.
From Verif Require Import Base ListModel StrModel StrProofs IfaceModel IfaceSpec IfaceProofs.
Import ListNotations.
Local Open Scope list_scope.
Local Open Scope nat_scope.
Notation length := List.length.

Definition s_ (s : string) : str := list_ascii_of_string s.
Definition array (s : string) (n : nat) : buf := s_ s ++ repeat NUL (n - length (s_ s)).

(** ** C39.  A base name followed by a number [n] below 999 of three or more
    digits, in an array that has room for [maxlength] > strlen bytes: the result
    is the base name followed by three digits that denote n+1; n+1 is returned
    and no byte outside the number changes. *)
Theorem C39_increment : forall b p d maxlength,
  cstr b = Some (p ++ d) -> base p -> numeral d -> 3 <= length d -> (value d < 999)%Z ->
  length (p ++ d) < maxlength -> maxlength <= length b ->
  exists b' t,
    FormatIface b maxlength = Some (b', (value d + 1)%Z) /\
    cstr b' = Some (p ++ t) /\ numeral t /\ length t = 3 /\ value t = (value d + 1)%Z /\
    length b' = length b /\
    (forall i, i < length p \/ length (p ++ d) < i -> nth_error b' i = nth_error b i).
Proof.
  intros b p d maxlength C B D D3 V M L. pose proof (app_length p d) as LA.
  assert (V0 : (0 <= value d)%Z) by (apply value_nonneg; apply D).
  destruct (ver_numeral (value d + 1)%Z ltac:(lia)) as (T1 & T2 & T3).
  pose proof (FormatIface_spec b p d maxlength C B D ltac:(unfold INT_MAX; lia) M ltac:(lia)) as F.
  rewrite fmt03_small in F by lia. change (firstn 3 (ver (value d + 1))) with (ver (value d + 1)) in F.
  eexists _, (ver (value d + 1)). split; [exact F|]. pose proof C as C0. apply cstr_some in C. destruct C as (r & Eb & NN).
  split; [|split; [exact T1|split; [exact T2|split; [exact T3|split]]]].
  - rewrite app_assoc. apply cstr_intro. intros I. apply in_app_or in I. destruct I as [I|I].
    + apply NN. apply in_or_app. left. exact I.
    + revert I. apply digits_no_NUL. apply T1.
  - rewrite !app_length, T2. cbn [List.length]. rewrite skipn_length. lia.
  - intros i [I|I].
    + rewrite nth_error_app1 by exact I. rewrite Eb, <- app_assoc, nth_error_app1 by exact I. reflexivity.
    + rewrite app_assoc. rewrite nth_error_app2 by (rewrite app_length, T2; lia). rewrite app_length, T2.
      replace (i - (length p + 3)) with (S (i - (length p + 4))) by lia. cbn [nth_error]. rewrite nth_error_skipn_add. f_equal. lia.
Qed.
Print Assumptions C39_increment.

(** With exactly three digits the name keeps its length. *)
Theorem C39_same_width : forall b p d maxlength,
  cstr b = Some (p ++ d) -> base p -> numeral d -> length d = 3 -> (value d < 999)%Z ->
  length (p ++ d) < maxlength -> maxlength <= length b ->
  exists b' t,
    FormatIface b maxlength = Some (b', (value d + 1)%Z) /\
    cstr b' = Some (p ++ t) /\ numeral t /\ length t = length d /\ value t = (value d + 1)%Z.
Proof.
  intros b p d maxlength C B D D3 V M L. destruct (C39_increment b p d maxlength C B D ltac:(lia) V M L) as (b' & t & F & C' & N & T & VT & _).
  exists b', t. repeat split; try assumption; try apply N. lia.
Qed.
Print Assumptions C39_same_width.

Example C39_example :
  let b := array "VEngineServer021" 20 in
  let p := s_ "VEngineServer" in let d := s_ "021" in
  cstr b = Some (p ++ d) /\ base p /\ numeral d /\ value d = 21%Z /\
  option_map (fun x => (cstr (fst x), snd x)) (FormatIface b 17) = Some (Some (s_ "VEngineServer022"), 22%Z).
Proof.
  split; [reflexivity|]. split; [exists (s_ "VEngineServe"), "r"%char; split; [reflexivity|rewrite <- isdigit_false; reflexivity]|].
  split; [split; [discriminate|repeat constructor; cbn; tauto]|]. split; reflexivity.
Qed.

(** Finding: with more than three digits the width is not kept. *)
Theorem C39_width_refuted :
  exists b b' n, cstr b = Some (s_ "Iface0001") /\ FormatIface b 16 = Some (b', n) /\
    n = 2%Z /\ cstr b' = Some (s_ "Iface002").
Proof. exists (array "Iface0001" 16). eexists _, _. split; [reflexivity|]. split; [vm_compute; reflexivity|]. split; reflexivity. Qed.
Print Assumptions C39_width_refuted.

(** Finding: version 999 is followed by version 100, reported as 1000. *)
Theorem C39_overflow_refuted :
  exists b b', cstr b = Some (s_ "Iface999") /\ FormatIface b 16 = Some (b', 1000%Z) /\
    cstr b' = Some (s_ "Iface100").
Proof. exists (array "Iface999" 16). eexists. split; [reflexivity|]. split; [vm_compute; reflexivity|]. reflexivity. Qed.
Print Assumptions C39_overflow_refuted.

(** Finding: a name without a number loses its last character. *)
Theorem C39_no_number_refuted :
  exists b b', cstr b = Some (s_ "Iface") /\ FormatIface b 16 = Some (b', 1%Z) /\
    cstr b' = Some (s_ "Ifac001").
Proof. exists (array "Iface" 16). eexists. split; [reflexivity|]. split; [vm_compute; reflexivity|]. reflexivity. Qed.
Print Assumptions C39_no_number_refuted.

(** Finding: with one or two digits the check of the size is wrong: for every
    base name an array of strlen + 1 bytes is accepted and overrun. *)
Theorem C39_overrun_refuted : forall p x, base p -> ~ In NUL p -> In x digits ->
  let b := p ++ [x; NUL] in
  cstr b = Some (p ++ [x]) /\ FormatIface b (length b) = None.
Proof.
  intros p x B NP X b.
  assert (C : cstr b = Some (p ++ [x])).
  { unfold b. change [x; NUL] with ([x] ++ [NUL]). rewrite app_assoc. apply cstr_intro. intros I. apply in_app_or in I. destruct I as [I|[I|[]]]; [exact (NP I)|]. rewrite I in X. exact (NUL_not_digit X). }
  split; [exact C|]. destruct B as (q & c & E & N). unfold FormatIface. rewrite C. cbv zeta.
  assert (SC : scan (p ++ [x]) (length (p ++ [x])) = Some (length q)) by (rewrite E; apply scan_digits; auto).
  assert (P : length p = S (length q)) by (rewrite E, app_length; cbn [List.length]; lia).
  assert (NL : not_last (Some (length q)) (length (p ++ [x])) = true).
  { cbn [not_last]. rewrite app_length, P. cbn [List.length]. apply negb_true_iff, Nat.eqb_neq. lia. }
  rewrite SC, NL. cbn [andb negb orb]. assert (LB : length b = length (p ++ [x]) + 1) by (unfold b; rewrite !app_length; cbn [List.length]; lia).
  destruct (Nat.leb_spec (length b) (length (p ++ [x]))) as [Y|_]; [lia|]. cbn [orb].
  assert (SK : skipn (S (length q)) (p ++ [x]) = [x]).
  { rewrite <- P, skipn_app, skipn_all, Nat.sub_diag. reflexivity. }
  rewrite SK. destruct (digit_cases x X) as (k & K & Ex). unfold atoi_digits. cbn [fold_left]. rewrite Ex.
  destruct (_ <=? INT_MAX)%Z eqn:Q; [|reflexivity]. destruct (_ =? INT_MAX)%Z eqn:Q2; [reflexivity|].
  unfold put, snprintf3. rewrite app_length. match goal with |- context [firstn 3 (fmt03 ?v)] => destruct (text3 v ltac:(lia)) as [_ T] end. rewrite T. cbn [List.length].
  destruct (Nat.leb_spec (S (length q) + (3 + 1)) (length b)) as [Y|_]; [|reflexivity]. rewrite app_length in LB. cbn [List.length] in LB. lia.
Qed.
Print Assumptions C39_overrun_refuted.

(** Finding: an empty name makes it write in front of the array. *)
Theorem C39_empty_refuted : forall n, 3 < n -> FormatIface (repeat NUL (S n)) n = None.
Proof.
  intros n N. unfold FormatIface. cbn [repeat cstr]. cbn [Ascii.eqb NUL]. change (Ascii.eqb NUL NUL) with true. cbv iota zeta. cbn [List.length scan not_last negb Nat.eqb andb orb].
  destruct (Nat.leb_spec n (0 + 3)); [lia|]. reflexivity.
Qed.
Print Assumptions C39_empty_refuted.

(** ** C40.  InterfaceSearch asks the factory, in this order and until it
    answers, for the name itself and then for the following versions up to one
    past the maximum (versions below 1000 in three digits; after 999 it asks for
    100).  [first_answer] is the specification of asking in order. *)
Definition version (v : Z) : str := if (v =? 1000)%Z then s_ "100" else ver v.
Definition versions_asked (p d : str) (max : Z) : list str :=
  (p ++ d) :: map (fun v => p ++ version v)
    (upfrom (value d + 1) (Z.to_nat (Z.max (value d) (Z.min max 999) + 1 - value d))).

Lemma upfrom_In k : forall v x, In x (upfrom v k) <-> (v <= x < v + Z.of_nat k)%Z.
Proof.
  induction k as [|k IH]; intros v x; cbn [upfrom In]; [lia|]. rewrite IH. lia.
Qed.

Theorem C40_search : forall ptr (fn : list str -> str -> option ptr) g p d max,
  length g = 256 -> base p -> numeral d -> 3 <= length d -> ~ In NUL p -> length (p ++ d) <= 252 ->
  (value d <= 999)%Z -> (0 <= max)%Z ->
  exists n, forall fuel, n <= fuel ->
    exists r asked, InterfaceSearch ptr fn fuel g (p ++ d) max = Done r asked /\
                    first_answer ptr fn [] (versions_asked p d max) = (r, asked).
Proof.
  intros ptr fn g p d max G B D D3 NP L V M. eexists. intros fuel F.
  rewrite (search_spec ptr fn g p d max G B D D3 NP L ltac:(unfold INT_MAX; lia) M fuel F).
  assert (V0 : (0 <= value d)%Z) by (apply value_nonneg; apply D).
  assert (E : map (fun v => p ++ text v) (upfrom (value d + 1) (Z.to_nat (Z.max (value d) (Z.min max 999) + 1 - value d))) =
              map (fun v => p ++ version v) (upfrom (value d + 1) (Z.to_nat (Z.max (value d) (Z.min max 999) + 1 - value d)))).
  { apply map_ext_in. intros v I. apply upfrom_In in I. unfold version. destruct (Z.eqb_spec v 1000) as [->|Nv]; [reflexivity|]. rewrite text_ver by lia. reflexivity. }
  rewrite E. fold (versions_asked p d max). destruct (first_answer ptr fn [] (versions_asked p d max)) as [r h]. exists r, h. split; reflexivity.
Qed.
Print Assumptions C40_search.

(** What [first_answer] means. *)
Lemma first_answer_spec ptr (fn : list str -> str -> option ptr) names : forall asked0 r asked,
  first_answer ptr fn asked0 names = (r, asked) ->
  (forall i x, i < length names -> nth_error names i = Some x ->
     S i < length asked - length asked0 -> fn (asked0 ++ firstn i names) x = None) /\
  asked = asked0 ++ firstn (length asked - length asked0) names /\
  length asked0 <= length asked /\
  match r with
  | Some a => exists x, nth_error names (length asked - length asked0 - 1) = Some x /\
                length asked0 < length asked /\
                fn (asked0 ++ firstn (length asked - length asked0 - 1) names) x = Some a
  | None => asked = asked0 ++ names /\
            forall i x, nth_error names i = Some x -> fn (asked0 ++ firstn i names) x = None
  end.
Proof.
  induction names as [|y names IH]; intros asked0 r asked H; cbn [first_answer] in H.
  - injection H as <- <-. split; [intros i x I; cbn [List.length] in I; lia|]. rewrite Nat.sub_diag. cbn [firstn]. rewrite app_nil_r. repeat split; auto.
    intros [|i] x E; discriminate.
  - destruct (fn asked0 y) as [a|] eqn:E.
    + injection H as <- <-. rewrite app_length. cbn [List.length]. replace (length asked0 + 1 - length asked0) with 1 by lia.
      split; [intros i x _ _ I; lia|]. cbn [firstn nth_error Nat.sub]. split; [reflexivity|]. split; [lia|]. exists y. rewrite app_nil_r. split; [reflexivity|]. split; [lia|exact E].
    + specialize (IH _ _ _ H). destruct IH as (I1 & I2 & I3 & I4). rewrite app_length in I1, I2, I3, I4. cbn [List.length] in I1, I2, I3, I4.
      assert (K : length asked - length asked0 = S (length asked - (length asked0 + 1))) by lia.
      split; [|split; [|split]].
      * intros [|i] x I X S; [cbn [nth_error] in X; injection X as ->; cbn [firstn]; rewrite app_nil_r; exact E|].
        cbn [nth_error] in X. cbn [List.length] in I. specialize (I1 i x ltac:(lia) X ltac:(lia)). rewrite <- app_assoc in I1. exact I1.
      * rewrite K. cbn [firstn]. rewrite I2 at 1. rewrite <- app_assoc. reflexivity.
      * lia.
      * destruct r as [a|].
        -- destruct I4 as (x & X & L & FX). exists x. rewrite K. cbn [Nat.sub]. rewrite Nat.sub_0_r.
           replace (length asked - (length asked0 + 1)) with (S (length asked - (length asked0 + 1) - 1)) by lia. cbn [nth_error firstn].
           split; [exact X|]. split; [lia|]. rewrite <- app_assoc in FX. exact FX.
        -- destruct I4 as (Ea & Fa). split; [rewrite Ea, <- app_assoc; reflexivity|]. intros [|i] x X; cbn [nth_error firstn] in *.
           ++ injection X as ->. rewrite app_nil_r. exact E.
           ++ specialize (Fa i x X). rewrite <- app_assoc in Fa. exact Fa.
Qed.

(** In words: the search ends; the names asked are an initial segment of the
    list; the answer is the factory's answer to the last of them, all earlier
    ones were refused; without an answer the whole list has been asked. *)
Theorem C40_exhaustive : forall ptr (fn : list str -> str -> option ptr) g p d max,
  length g = 256 -> base p -> numeral d -> 3 <= length d -> ~ In NUL p -> length (p ++ d) <= 252 ->
  (value d <= 999)%Z -> (0 <= max)%Z ->
  exists n, forall fuel, n <= fuel ->
    exists r asked, InterfaceSearch ptr fn fuel g (p ++ d) max = Done r asked /\
      asked = firstn (length asked) (versions_asked p d max) /\
      (forall i x, S i < length asked -> nth_error asked i = Some x -> fn (firstn i asked) x = None) /\
      match r with
      | Some a => exists earlier x, asked = earlier ++ [x] /\ fn earlier x = Some a
      | None => asked = versions_asked p d max /\
                forall i x, nth_error asked i = Some x -> fn (firstn i asked) x = None
      end.
Proof.
  intros ptr fn g p d max G B D D3 NP L V M. destruct (C40_search ptr fn g p d max G B D D3 NP L V M) as (n & H). exists n. intros fuel F.
  destruct (H fuel F) as (r & asked & E & FA). exists r, asked. split; [exact E|]. apply first_answer_spec in FA. cbn [List.length app] in FA.
  rewrite !Nat.sub_0_r in FA. destruct FA as (F1 & F2 & _ & F4).
  assert (PX : forall i x, nth_error asked i = Some x -> nth_error (versions_asked p d max) i = Some x /\ firstn i asked = firstn i (versions_asked p d max) /\ i < length asked).
  { intros i x X. assert (I : i < length asked) by (apply nth_error_Some; rewrite X; discriminate). split; [|split; [|exact I]].
    - rewrite F2 in X. rewrite nth_error_firstn_lt in X by lia. exact X.
    - rewrite F2 at 1. rewrite firstn_firstn. f_equal. lia. }
  split; [exact F2|]. split.
  - intros i x S X. destruct (PX i x X) as (X1 & X2 & X3). rewrite X2. apply F1; [|exact X1|exact S]. apply nth_error_Some. rewrite X1. discriminate.
  - destruct r as [a|].
    + destruct F4 as (x & X & L0 & FX). exists (firstn (length asked - 1) (versions_asked p d max)), x. split; [|exact FX].
      rewrite F2 at 1. replace (length asked) with (S (length asked - 1)) at 1 by lia. apply firstn_S_nth. exact X.
    + destruct F4 as (Ea & Fa). split; [exact Ea|]. intros i x X. destruct (PX i x X) as (X1 & X2 & _). rewrite X2. apply Fa. exact X1.
Qed.
Print Assumptions C40_exhaustive.

Example C40_example :
  let p := s_ "VEngineServer" in let d := s_ "021" in
  let fn := fun (_ : list str) x => if str_eqb x (s_ "VEngineServer023") then Some 7 else None in
  base p /\ numeral d /\ (value d <= 999)%Z /\
  InterfaceSearch nat fn 10 (repeat NUL 256) (p ++ d) 30 =
    Done (Some 7) [s_ "VEngineServer021"; s_ "VEngineServer022"; s_ "VEngineServer023"].
Proof.
  split; [exists (s_ "VEngineServe"), "r"%char; split; [reflexivity|rewrite <- isdigit_false; reflexivity]|].
  split; [split; [discriminate|repeat constructor; cbn; tauto]|]. split; [vm_compute; discriminate|]. vm_compute. reflexivity.
Qed.

(** With a maximum below 999, no name is asked twice. *)
Lemma upfrom_NoDup k : forall v, NoDup (upfrom v k).
Proof.
  induction k as [|k IH]; intros v; cbn [upfrom]; constructor; [rewrite upfrom_In; lia|apply IH].
Qed.
Theorem C40_once : forall p d max, numeral d -> (value d < 999)%Z -> (0 <= max < 999)%Z ->
  NoDup (versions_asked p d max).
Proof.
  intros p d max D V M. assert (V0 : (0 <= value d)%Z) by (apply value_nonneg; apply D).
  assert (R : forall v, In v (upfrom (value d + 1) (Z.to_nat (Z.max (value d) (Z.min max 999) + 1 - value d))) -> (value d < v < 1000)%Z).
  { intros v I. apply upfrom_In in I. lia. }
  assert (VV : forall v, (0 <= v < 1000)%Z -> value (version v) = v).
  { intros v I. unfold version. destruct (Z.eqb_spec v 1000); [lia|]. apply ver_numeral. exact I. }
  unfold versions_asked. constructor.
  - rewrite in_map_iff. intros (v & E & I). apply app_inv_head in E. apply R in I. assert (value (version v) = value d) by (rewrite E; reflexivity).
    rewrite VV in H by lia. lia.
  - generalize R. generalize (upfrom_NoDup (Z.to_nat (Z.max (value d) (Z.min max 999) + 1 - value d)) (value d + 1)).
    generalize (upfrom (value d + 1) (Z.to_nat (Z.max (value d) (Z.min max 999) + 1 - value d))). intros l ND RL.
    induction ND as [|x l NI ND IH]; cbn [map]; constructor.
    + rewrite in_map_iff. intros (v & E & I). apply app_inv_head in E. apply NI. replace x with v; [exact I|].
      rewrite <- (VV v), <- (VV x), E; [reflexivity| |]; [specialize (RL x (or_introl eq_refl))|specialize (RL v (or_intror I))]; lia.
    + apply IH. intros v I. apply RL. right. exact I.
Qed.
Print Assumptions C40_once.

(** Every version from the given one to the maximum is in the list. *)
Theorem C40_complete : forall p d max v, numeral d -> (value d < v <= Z.min max 999)%Z ->
  In (p ++ ver v) (versions_asked p d max).
Proof.
  intros p d max v D V. right. apply in_map_iff. exists v. split.
  - unfold version. destruct (Z.eqb_spec v 1000); [lia|reflexivity].
  - apply upfrom_In. lia.
Qed.
Print Assumptions C40_complete.

(** Termination for every name with a version of at least three digits that fits
    an int, every maximum and every factory. *)
Theorem C40_terminates : forall ptr (fn : list str -> str -> option ptr) g p d max,
  length g = 256 -> base p -> numeral d -> 3 <= length d -> ~ In NUL p -> (value d < INT_MAX)%Z ->
  exists n r asked, forall fuel, n <= fuel -> InterfaceSearch ptr fn fuel g (p ++ d) max = Done r asked.
Proof.
  intros ptr fn g p d max G B D D3 NP V.
  assert (NN : ~ In NUL (p ++ d)).
  { intros I. apply in_app_or in I. destruct I as [I|I]; [exact (NP I)|]. revert I. apply digits_no_NUL. apply D. }
  destruct (le_lt_dec (length (p ++ d)) 252) as [L|L].
  - destruct (Z.lt_ge_cases max 0) as [M|M].
    + destruct (first_answer ptr fn [] [p ++ d]) as [r h] eqn:E. exists 1, r, h. intros fuel F. rewrite (search_negative ptr fn g _ max fuel G L NN M) by lia. rewrite E. reflexivity.
    + destruct (first_answer ptr fn [] ((p ++ d) :: map (fun v => p ++ text v) (upfrom (value d + 1) (Z.to_nat (Z.max (value d) (Z.min max 999) + 1 - value d))))) as [r h] eqn:E.
      eexists _, r, h. intros fuel F. rewrite (search_spec ptr fn g p d max G B D D3 NP L V M fuel F), E. reflexivity.
  - exists 0, None, []. intros fuel _. unfold InterfaceSearch. destruct (Nat.ltb_spec 256 (length (p ++ d) + 4)); [reflexivity|lia].
Qed.
Print Assumptions C40_terminates.

(** VInterfaceMatch: a name with a version of exactly three digits is searched
    from the version given (0 means 1); any other name, and every name when the
    version is -1, is searched as it is. *)
Theorem C40_match : forall ptr (fn : list str -> str -> option ptr) fuel g1 g2 p d min,
  length g1 = 256 -> base p -> numeral d -> length d = 3 -> ~ In NUL p -> length (p ++ d) <= 252 ->
  (0 <= min < 1000)%Z ->
  VInterfaceMatch ptr fn fuel g1 g2 (p ++ d) min =
  InterfaceSearch ptr fn fuel g2 (p ++ ver (Z.max 1 min)) 999.
Proof.
  intros ptr fn fuel g1 g2 p d min G B D D3 NP L M. unfold VInterfaceMatch. destruct (Nat.ltb_spec (256 - 4) (length (p ++ d))); [lia|].
  rewrite (match_three g1 p d min G B D D3 NP L ltac:(lia)).
  replace (if (min =? 0)%Z then 1%Z else min) with (Z.max 1 min) by (destruct (Z.eqb_spec min 0); lia). rewrite text_ver by lia. reflexivity.
Qed.
Print Assumptions C40_match.

Theorem C40_match_unchanged : forall ptr (fn : list str -> str -> option ptr) fuel g1 g2 p d min,
  length g1 = 256 -> base p -> Forall (fun c => In c digits) d -> length d <> 3 \/ min = (-1)%Z ->
  ~ In NUL p -> length (p ++ d) <= 252 ->
  VInterfaceMatch ptr fn fuel g1 g2 (p ++ d) min = InterfaceSearch ptr fn fuel g2 (p ++ d) 999.
Proof.
  intros ptr fn fuel g1 g2 p d min G B D C NP L. unfold VInterfaceMatch. destruct (Nat.ltb_spec (256 - 4) (length (p ++ d))); [lia|].
  assert (E : match_name g1 (p ++ d) min = Some (p ++ d)); [|rewrite E; reflexivity].
  destruct C as [C| ->]; [apply match_other; assumption|]. unfold match_name.
  destruct (store_ok g1 (p ++ d) G L) as (b & -> & Cb & _); [|exact Cb].
  intros I. apply in_app_or in I. destruct I as [I|I]; [exact (NP I)|]. revert I. apply digits_no_NUL. exact D.
Qed.
Print Assumptions C40_match_unchanged.

Example C40_match_example :
  let fn := fun (_ : list str) x => if str_eqb x (s_ "ServerGameDLL005") then Some 1 else None in
  VInterfaceMatch nat fn 20 (repeat NUL 256) (repeat NUL 256) (s_ "ServerGameDLL009") 4 =
  Done (Some 1) [s_ "ServerGameDLL004"; s_ "ServerGameDLL005"].
Proof. vm_compute. reflexivity. Qed.

(** Finding: a name without a version, which the factory does not know: the
    search never ends (FormatIface keeps returning -1). *)
Theorem C40_nontermination_refuted : forall ptr (fn : list str -> str -> option ptr) g p max,
  length g = 256 -> base p -> ~ In NUL p -> length p <= 252 -> (0 <= max)%Z -> (forall h n, fn h n = None) ->
  forall fuel, InterfaceSearch ptr fn fuel g p max = Running.
Proof.
  intros ptr fn g p max G B NP L M F fuel. unfold InterfaceSearch. destruct (Nat.ltb_spec 256 (length p + 4)) as [X|_]; [lia|].
  destruct (store_ok g p G L NP) as (b & -> & C & _). apply loop_stuck; auto; destruct (Z.gtb_spec max 999); lia.
Qed.
Print Assumptions C40_nontermination_refuted.
Example C40_nontermination_example : base (s_ "VEngineServer") /\ ~ In NUL (s_ "VEngineServer").
Proof.
  split; [exists (s_ "VEngineServe"), "r"%char; split; [reflexivity|rewrite <- isdigit_false; reflexivity]|].
  cbn. intros H. repeat destruct H as [H|H]; try discriminate; exact H.
Qed.
(** The same for VInterfaceMatch. *)
Theorem C40_match_nontermination_refuted : forall ptr (fn : list str -> str -> option ptr) g1 g2 p min,
  length g1 = 256 -> length g2 = 256 -> base p -> ~ In NUL p -> length p <= 252 -> (forall h n, fn h n = None) ->
  forall fuel, VInterfaceMatch ptr fn fuel g1 g2 p min = Running.
Proof.
  intros ptr fn g1 g2 p min G1 G2 B NP L F fuel. pose proof (C40_match_unchanged ptr fn fuel g1 g2 p [] min G1 B (Forall_nil _) ltac:(left; discriminate) NP) as X.
  rewrite app_nil_r in X. rewrite X by exact L. apply C40_nontermination_refuted; auto; lia.
Qed.
Print Assumptions C40_match_nontermination_refuted.

(** Finding: one version past the maximum is asked, and returned when the
    factory has it. *)
Theorem C40_past_maximum_refuted :
  exists fn : list str -> str -> option nat,
    InterfaceSearch nat fn 10 (repeat NUL 256) (s_ "Iface003") 4 =
    Done (Some 1) [s_ "Iface003"; s_ "Iface004"; s_ "Iface005"].
Proof. exists (fun _ x => if str_eqb x (s_ "Iface005") then Some 1 else None). vm_compute. reflexivity. Qed.
Print Assumptions C40_past_maximum_refuted.

(** Finding: with the maximum 999 the last name asked is version 100, whatever
    the start; from a start below 100 it has been asked before. *)
Lemma upfrom_snoc k : forall v, upfrom v (S k) = upfrom v k ++ [(v + Z.of_nat k)%Z].
Proof.
  induction k as [|k IH]; intros v; [cbn [upfrom app]; f_equal; lia|]. change (upfrom v (S (S k))) with (v :: upfrom (v + 1) (S k)).
  rewrite IH. cbn [upfrom app]. f_equal. f_equal. f_equal. lia.
Qed.
Theorem C40_wraps_refuted : forall p d, numeral d -> (value d <= 999)%Z ->
  exists l, versions_asked p d 999 = l ++ [p ++ s_ "100"] /\
            ((value d < 100)%Z -> In (p ++ s_ "100") l).
Proof.
  intros p d D V. assert (V0 : (0 <= value d)%Z) by (apply value_nonneg; apply D). unfold versions_asked.
  replace (Z.to_nat (Z.max (value d) (Z.min 999 999) + 1 - value d)) with (S (Z.to_nat (999 - value d))) by lia.
  rewrite upfrom_snoc, map_app. cbn [map]. replace (value d + 1 + Z.of_nat (Z.to_nat (999 - value d)))%Z with 1000%Z by lia.
  exists ((p ++ d) :: map (fun v => p ++ version v) (upfrom (value d + 1) (Z.to_nat (999 - value d)))). split; [reflexivity|].
  intros L. right. apply in_map_iff. exists 100%Z. split; [reflexivity|]. apply upfrom_In. lia.
Qed.
Print Assumptions C40_wraps_refuted.

(** Finding: a name that consists of three digits makes VInterfaceMatch read in
    front of its buffer; so does the empty name. *)
Theorem C40_underflow_refuted : forall ptr (fn : list str -> str -> option ptr) fuel g2,
  VInterfaceMatch ptr fn fuel (repeat NUL 256) g2 (s_ "123") 1 = UB /\
  VInterfaceMatch ptr fn fuel (repeat NUL 256) g2 [] 1 = UB.
Proof. intros. split; vm_compute; reflexivity. Qed.
Print Assumptions C40_underflow_refuted.
