(** C65: changing the protection of memory (Linux). *)
From Coq Require Import List ZArith Bool Arith Ascii String Lia.
From Verif Require Import ListModel StrModel MemModel MemSpec MemProofs.
Import ListNotations.
Local Open Scope list_scope.
Local Open Scope Z_scope.
Notation length := List.length.

(** 32 or 64 bits; a pointer to a pointer *)
Definition bits_ok (wb : Z) : Prop := wb = 32 \/ wb = 64.
Definition slot (wb ptr : Z) : Prop := 0 <= ptr /\ ptr + wb / 8 <= 2 ^ wb /\ ptr mod (wb / 8) = 0.
Definition wf_mem (m : mem) : Prop := forall p b, rights m p = Some b -> 0 <= b < 8.

Lemma wrap wb addr len : bits_ok wb -> 0 <= len < 2 ^ 31 -> (len + SH_LALDIF addr) mod 2 ^ wb = len + SH_LALDIF addr.
Proof.
  intros B L. unfold SH_LALDIF, PAGESIZE. pose proof (Z.mod_pos_bound addr 4096 ltac:(lia)). apply Z.mod_small. destruct B as [-> | ->]; lia.
Qed.
(** SetMemAccess gives the rights to the pages that hold one of the bytes, and to no others. *)
Theorem C65_access : forall wb allow m addr len acc m' ok, bits_ok wb -> 0 < len < 2 ^ 31 -> SetMemAccess wb allow m addr len acc = (m', ok) ->
  word m' = word m /\
  (ok = true -> forall p, ((exists x, addr <= x < addr + len /\ x / 4096 = p) -> rights m' p = Some acc) /\
                          ((forall x, addr <= x < addr + len -> x / 4096 <> p) -> rights m' p = rights m p)) /\
  (ok = false -> m' = m) /\
  (allow = true -> (forall x, addr <= x < addr + len -> mapped m x) -> ok = true).
Proof.
  intros wb allow m addr len acc m' ok B L E. unfold SetMemAccess in E. rewrite wrap in E by (assumption || lia). unfold mprotect in E.
  assert (AL : (SH_LALIGN addr mod PAGESIZE =? 0) = true) by (rewrite lalign; unfold PAGESIZE; rewrite Z.mod_mul by lia; reflexivity). rewrite AL, andb_true_r in E.
  pose proof (fun p => touched_pages p addr len (proj1 L)) as T. set (ps := page_list _ _) in *.
  destruct (allow && forallb (fun p => match rights m p with Some _ => true | None => false end) ps) eqn:C; injection E as <- <-; cbn [word rights].
  - split; [reflexivity|]. split; [|split; [discriminate|reflexivity]]. intros _ p. split; intros H.
    + apply T in H. rewrite H. reflexivity.
    + destruct (existsb (Z.eqb p) ps) eqn:X; [|reflexivity]. apply T in X. destruct X as (x & R & X). exfalso. exact (H x R X).
  - split; [reflexivity|]. split; [discriminate|]. split; [reflexivity|]. intros -> M. cbn [andb] in C. exfalso.
    assert (Y : forallb (fun p => match rights m p with Some _ => true | None => false end) ps = true); [|congruence].
    apply forallb_forall. intros p I. assert (X : existsb (Z.eqb p) ps = true) by (apply existsb_exists; exists p; split; [exact I|apply Z.eqb_refl]).
    apply T in X. destruct X as (x & R & <-). specialize (M x R). unfold mapped in M. destruct (rights m (x / 4096)); [reflexivity|congruence].
Qed.
Print Assumptions C65_access.

Lemma bit1 b : negb (Z.land b PROT_WRITE =? 0) = Z.testbit b 1.
Proof.
  unfold PROT_WRITE. destruct (Z.eqb_spec (Z.land b 2) 0) as [E|E]; cbn [negb].
  - assert (X : Z.testbit (Z.land b 2) 1 = false) by (rewrite E; reflexivity). rewrite Z.land_spec in X. change (Z.testbit 2 1) with true in X. rewrite andb_true_r in X. auto.
  - destruct (Z.testbit b 1) eqn:T; [reflexivity|]. exfalso. apply E. apply Z.bits_inj'. intros n Hn. rewrite Z.land_spec, Z.testbit_0_l. change 2 with (2 ^ 1). rewrite Z.pow2_bits_eqb by lia. destruct (Z.eqb_spec 1 n) as [<-|]; [rewrite T; reflexivity|apply andb_false_r].
Qed.
Lemma slot_page wb ptr x : bits_ok wb -> slot wb ptr -> ptr <= x < ptr + wb / 8 -> x / 4096 = ptr / 4096.
Proof. intros B (_ & _ & A) X. apply (aligned_page (wb / 8)); auto. destruct B as [-> | ->]; [left|right]; reflexivity. Qed.

(** MakePageWritable: the pointer can be written, no page has lost a right, and nothing
    but the page of the pointer has changed. *)
Theorem C65_writable : forall wb allow maps m ptr, bits_ok wb -> slot wb ptr -> wf_mem m -> describes wb maps m ->
  exists m' ok, MakePageWritable wb allow maps m ptr = Some (m', ok) /\ word m' = word m /\ kept m m' /\
    (forall p, p <> ptr / 4096 -> rights m' p = rights m p) /\
    (ok = true -> forall x, ptr <= x < ptr + wb / 8 -> writable m' x) /\
    (ok = false -> m' = m) /\
    (allow = true -> mapped m ptr -> ok = true) /\
    (forall b b', maps <> None -> rights m (ptr / 4096) = Some b -> rights m' (ptr / 4096) = Some b' -> ok = true -> forall k, Z.testbit b' k = Z.testbit b k || (k =? 1)).
Proof.
  intros wb allow maps m ptr B S W D. unfold MakePageWritable. rewrite (GetPageBits_spec _ _ _ _ D).
  assert (L : 0 < wb / 8 < 2 ^ 31) by (destruct B as [-> | ->]; cbn; lia).
  assert (SELF : ptr <= ptr < ptr + wb / 8) by lia.
  assert (SET : forall acc, (forall b, rights m (ptr / 4096) = Some b -> forall k, 0 <= k -> Z.testbit b k = true -> Z.testbit acc k = true) -> Z.testbit acc 1 = true ->
    exists m' ok, SetMemAccess wb allow m ptr (wb / 8) acc = (m', ok) /\ word m' = word m /\ kept m m' /\ (forall p, p <> ptr / 4096 -> rights m' p = rights m p) /\
      (ok = true -> forall x, ptr <= x < ptr + wb / 8 -> writable m' x) /\ (ok = false -> m' = m) /\ (allow = true -> mapped m ptr -> ok = true) /\ (ok = true -> rights m' (ptr / 4096) = Some acc)).
  { intros acc SUP W1. destruct (SetMemAccess wb allow m ptr (wb / 8) acc) as [m' ok] eqn:E. exists m', ok. split; [reflexivity|].
    destruct (C65_access _ _ _ _ _ _ _ _ B L E) as (A1 & A2 & A3 & A4). split; [exact A1|].
    assert (PG : ok = true -> rights m' (ptr / 4096) = Some acc) by (intros O; apply (A2 O); exists ptr; auto).
    assert (OT : forall p, p <> ptr / 4096 -> rights m' p = rights m p).
    { intros p N. destruct ok; [|rewrite (A3 eq_refl); reflexivity]. apply (A2 eq_refl). intros x X. rewrite (slot_page wb ptr x B S X). auto. }
    split; [|split; [exact OT|split; [|split; [exact A3|split; [|exact PG]]]]].
    - intros a k (b & R & T). destruct (Z.eq_dec (a / 4096) (ptr / 4096)) as [Q|Q]; [|exists b; rewrite OT by exact Q; auto].
      destruct ok; [|rewrite (A3 eq_refl); exists b; auto]. exists acc. rewrite Q. split; [apply PG; reflexivity|]. destruct (Z.leb_spec 0 k) as [K|K]; [|rewrite Z.testbit_neg_r in T by lia; discriminate]. rewrite Q in R. exact (SUP b R k K T).
    - intros O x X. exists acc. rewrite (slot_page wb ptr x B S X). auto.
    - intros AL M. apply A4; [exact AL|]. intros x X. unfold mapped. rewrite (slot_page wb ptr x B S X). exact M. }
  destruct maps as [t|].
  - destruct (rights m (ptr / 4096)) as [b|] eqn:R.
    + rewrite bit1. destruct (Z.testbit b 1) eqn:T.
      * exists m, true. split; [reflexivity|]. split; [reflexivity|]. split; [intros a k H; exact H|]. split; [reflexivity|]. split; [|split; [discriminate|split; [reflexivity|]]].
        -- intros _ x X. exists b. rewrite (slot_page wb ptr x B S X). auto.
        -- intros b1 b2 _ R1 R2 _ k. injection R1 as <-. rewrite R in R2. injection R2 as <-. destruct (Z.eqb_spec k 1) as [->|]; [rewrite T; reflexivity|rewrite orb_false_r; reflexivity].
      * destruct (SET (Z.lor b PROT_WRITE)) as (m' & ok & E & Q1 & Q2 & Q3 & Q4 & Q5 & Q6 & Q7).
        { intros b' E' k K T'. injection E' as <-. rewrite Z.lor_spec, T'. reflexivity. }
        { rewrite Z.lor_spec. apply orb_true_r. }
        exists m', ok. rewrite E. split; [reflexivity|]. split; [exact Q1|]. split; [exact Q2|]. split; [exact Q3|]. split; [auto|]. split; [exact Q5|]. split; [exact Q6|].
        intros b1 b2 _ R1 R2 O k. injection R1 as <-. rewrite (Q7 O) in R2. injection R2 as <-. rewrite Z.lor_spec. f_equal. change PROT_WRITE with (2 ^ 1).
        destruct (Z.ltb_spec k 0); [rewrite Z.testbit_neg_r by lia; symmetry; apply Z.eqb_neq; lia|]. rewrite Z.pow2_bits_eqb by lia. apply Z.eqb_sym.
    + (* not mapped: mprotect fails, but nothing is claimed of a success *)
      destruct (SET (Z.lor (Z.lor PROT_READ PROT_WRITE) PROT_EXEC)) as (m' & ok & E & Q1 & Q2 & Q3 & Q4 & Q5 & Q6 & Q7); [discriminate|reflexivity|].
      exists m', ok. rewrite E. split; [reflexivity|]. split; [exact Q1|]. split; [exact Q2|]. split; [exact Q3|]. split; [auto|]. split; [exact Q5|]. split; [exact Q6|]. discriminate.
  - destruct (SET (Z.lor (Z.lor PROT_READ PROT_WRITE) PROT_EXEC)) as (m' & ok & E & Q1 & Q2 & Q3 & Q4 & Q5 & Q6 & Q7).
    { intros b R k K T. pose proof (W _ _ R). change (Z.lor (Z.lor PROT_READ PROT_WRITE) PROT_EXEC) with (Z.ones 3). apply Z.ones_spec_low.
      destruct (Z.ltb_spec k 3); [lia|]. exfalso. destruct (Z.eq_dec b 0) as [->|]; [rewrite Z.testbit_0_l in T; discriminate|].
      rewrite Z.bits_above_log2 in T; [discriminate|lia|]. assert (Z.log2 b < 3) by (apply Z.log2_lt_pow2; lia). lia. }
    { reflexivity. }
    exists m', ok. rewrite E. split; [reflexivity|]. split; [exact Q1|]. split; [exact Q2|]. split; [exact Q3|]. split; [auto|]. split; [exact Q5|]. split; [exact Q6|]. intros b b' N. congruence.
Qed.
Print Assumptions C65_writable.

(** ModuleInMemory: true exactly if one mapping holds all the bytes. *)
Theorem C65_module : forall wb t m addr len, bits_ok wb -> 0 <= addr -> 0 < len -> addr + len < 2 ^ wb -> describes wb (Some t) m ->
  exists ms b, text_of ms t /\ (forall faults, ModuleInMemory wb (Some t) faults addr len = Some b) /\
    (b = true <-> exists x, In x ms /\ forall a, addr <= a < addr + len -> contains x a).
Proof.
  intros wb t m addr len B A L U D. destruct (describes_rights _ _ _ D) as (ms & ls & F & -> & Bd & R & P).
  destruct (scan_range_spec wb addr ((addr + len) mod 2 ^ wb) ms ls F Bd) as (b & E & O). exists ms, b. split; [exists ls; auto|]. split.
  - intros f. cbn [ModuleInMemory]. rewrite (getlines_concat _ _ F). exact E.
  - rewrite O, Z.mod_small by lia. split; intros (x & I & H); exists x; (split; [exact I|]); unfold contains in *.
    + intros a X. lia.
    + pose proof (H addr). pose proof (H (addr + len - 1)). lia.
Qed.
Print Assumptions C65_module.

(** Revert: the original value is put back exactly if the pointer is still mapped;
    the write never faults. *)
Theorem C65_revert : forall wb allow t faults m ptr orig, bits_ok wb -> slot wb ptr -> ptr + wb / 8 < 2 ^ wb -> wf_mem m -> describes wb (Some t) m ->
  exists m' ok, Revert wb allow (Some t) faults m ptr orig = Some (m', ok) /\ kept m m' /\ (forall a, a <> ptr -> word m' a = word m a) /\
    (mapped m ptr -> ok = true -> word m' ptr = orig) /\ (mapped m ptr -> allow = true -> ok = true) /\
    (~ mapped m ptr -> m' = m /\ ok = true) /\ (ok = false -> m' = m).
Proof.
  intros wb allow t faults m ptr orig B S U W D. assert (L : 0 < wb / 8) by (destruct B as [-> | ->]; reflexivity).
  destruct (C65_module wb t m ptr (wb / 8) B (proj1 S) L U D) as (ms & b & T & E & O). destruct (describes_rights _ _ _ D) as (ms' & ls & F & Et & Bd & R & P).
  unfold Revert. rewrite (E faults). clear O. specialize (E faults). cbn [ModuleInMemory] in E. rewrite Et, (getlines_concat _ _ F), Z.mod_small in E by (unfold slot in S; lia).
  destruct (scan_range_spec wb ptr (ptr + wb / 8) ms' ls F Bd) as (b' & E' & O). rewrite E in E'. injection E' as <-.
  assert (MAP : b = true <-> mapped m ptr).
  { rewrite O. unfold mapped. pose proof (R ptr) as Rp. split.
    - intros (x & I & H1 & H2). destruct (rights m (ptr / 4096)) as [r|]; [discriminate|]. exfalso. apply (Rp x I). unfold contains. lia.
    - intros N. destruct (rights m (ptr / 4096)) as [r|]; [|congruence]. destruct Rp as (x & I & C & _). exists x. split; [exact I|]. destruct (proj1 P x I) as (_ & _ & A1 & A2). unfold contains in C.
      split; [lia|]. assert (Q : (ptr + wb / 8 - 1) / 4096 = ptr / 4096) by (apply (slot_page wb); auto; lia).
      apply (page_of_mapping _ _ _ A1 A2) in C. rewrite <- Q in C. apply (page_of_mapping _ _ _ A1 A2) in C. lia. }
  destruct b.
  - destruct MAP as [M _]. specialize (M eq_refl). destruct (C65_writable wb allow (Some t) m ptr B S W D) as (m1 & ok & E1 & Q1 & Q2 & Q3 & Q4 & Q5 & Q6 & _).
    unfold Patch. rewrite E1. destruct ok.
    + assert (WR : forall x, ptr <= x < ptr + wb / 8 -> writable m1 x) by (apply Q4; reflexivity).
      unfold store, PAGESIZE. cbn [forallb]. assert (X1 : ptr <= ptr < ptr + wb / 8) by lia. assert (X2 : ptr <= ptr + wb / 8 - 1 < ptr + wb / 8) by lia.
      destruct (WR _ X1) as (b1 & -> & T1). destruct (WR _ X2) as (b2 & -> & T2). rewrite T1, T2. cbn [andb]. eexists _, true. split; [reflexivity|]. cbn [word rights].
      split; [intros a k H; destruct (Q2 a k H) as (c & H1 & H2); exists c; auto|]. rewrite Z.eqb_refl. split; [intros a N; destruct (Z.eqb_spec a ptr); [contradiction|rewrite Q1; reflexivity]|].
      split; [reflexivity|]. split; [reflexivity|]. split; [intros N; contradiction|discriminate].
    + exists m1, false. split; [reflexivity|]. split; [exact Q2|]. split; [intros a _; rewrite Q1; reflexivity|]. split; [discriminate|]. split; [auto|]. split; [intros N; contradiction|exact Q5].
  - exists m, true. split; [reflexivity|]. split; [intros a k H; exact H|]. split; [reflexivity|]. assert (N : ~ mapped m ptr) by (intros M; apply MAP in M; discriminate).
    split; [intros M; contradiction|]. split; [reflexivity|]. split; [auto|discriminate].
Qed.
Print Assumptions C65_revert.

(** *** What does not hold *)
Definition txt (s : string) : str := list_ascii_of_string s.
Definition nl : string := String "010" EmptyString.
Definition maps_ex : str := txt ("00400000-00401000 r--p 00000000 08:01 17 /srv/server.so" ++ nl ++ "00401000-00402000 r-xp 00001000 08:01 17 /srv/server.so" ++ nl ++ "00600000-00602000 ---p 00000000 00:00 0" ++ nl)%string.
Definition mem_ex : mem := Mem (fun p => if p =? 1024 then Some 1 else if p =? 1025 then Some 5 else if (p =? 1536) || (p =? 1537) then Some 0 else None) (fun _ => 0).
Definition ms_ex : list mapping := [Mapping 4194304 4198400 true false false; Mapping 4198400 4202496 true false true; Mapping 6291456 6299648 false false false].
Ltac numeral := match goal with |- hex_numeral ?s ?n => let k := eval vm_compute in (n / 16) in let d := eval vm_compute in (Z.to_nat (n mod 16)) in
  let l := eval vm_compute in (removelast s) in let c := eval vm_compute in (List.last s NUL) in
  match l with [] => apply (hn_one d c); reflexivity | _ => change s with (l ++ [c]); change n with (16 * k + Z.of_nat d); apply (hn_more l k d c); [numeral|reflexivity] end end.
Lemma mem_ex_ok : describes 64 (Some maps_ex) mem_ex /\ wf_mem mem_ex.
Proof.
  split.
  - exists ms_ex. split; [|split].
    + exists [txt ("00400000-00401000 r--p 00000000 08:01 17 /srv/server.so" ++ nl)%string; txt ("00401000-00402000 r-xp 00001000 08:01 17 /srv/server.so" ++ nl)%string; txt ("00600000-00602000 ---p 00000000 00:00 0" ++ nl)%string]. split; [|reflexivity].
      repeat constructor.
      * apply (line_of_ (Mapping 4194304 4198400 true false false) (txt "00400000") (txt "00401000") (txt "p 00000000 08:01 17 /srv/server.so")); [cbn [m_lo]; change (txt "00400000") with ["0";"0";"4";"0";"0";"0";"0";"0"]%char; numeral|cbn [m_hi]; change (txt "00401000") with ["0";"0";"4";"0";"1";"0";"0";"0"]%char; numeral|cbn; intuition discriminate].
      * apply (line_of_ (Mapping 4198400 4202496 true false true) (txt "00401000") (txt "00402000") (txt "p 00001000 08:01 17 /srv/server.so")); [cbn [m_lo]; change (txt "00401000") with ["0";"0";"4";"0";"1";"0";"0";"0"]%char; numeral|cbn [m_hi]; change (txt "00402000") with ["0";"0";"4";"0";"2";"0";"0";"0"]%char; numeral|cbn; intuition discriminate].
      * apply (line_of_ (Mapping 6291456 6299648 false false false) (txt "00600000") (txt "00602000") (txt "p 00000000 00:00 0")); [cbn [m_lo]; change (txt "00600000") with ["0";"0";"6";"0";"0";"0";"0";"0"]%char; numeral|cbn [m_hi]; change (txt "00602000") with ["0";"0";"6";"0";"2";"0";"0";"0"]%char; numeral|cbn; intuition discriminate].
    + split; [|repeat constructor; cbn; lia]. intros m [<-|[<-|[<-|[]]]]; cbn [m_lo m_hi]; split; [lia|split; [lia|split; reflexivity]|lia|split; [lia|split; reflexivity]|lia|split; [lia|split; reflexivity]].
    + intros p. cbn [rights mem_ex]. unfold ms_ex, contains.
      destruct (Z.eqb_spec p 1024) as [->|]; [exists (Mapping 4194304 4198400 true false false); cbn; split; [auto|split; [lia|reflexivity]]|].
      destruct (Z.eqb_spec p 1025) as [->|]; [exists (Mapping 4198400 4202496 true false true); cbn; split; [auto|split; [lia|reflexivity]]|].
      destruct (Z.eqb_spec p 1536) as [->|]; [exists (Mapping 6291456 6299648 false false false); cbn; split; [auto|split; [lia|reflexivity]]|].
      destruct (Z.eqb_spec p 1537) as [->|]; [exists (Mapping 6291456 6299648 false false false); cbn; split; [auto|split; [lia|reflexivity]]|].
      cbn [orb]. intros m [<-|[<-|[<-|[]]]]; cbn [m_lo m_hi]; lia.
  - intros p b. cbn [rights mem_ex]. destruct (p =? 1024); [intros E; injection E as <-; lia|]. destruct (p =? 1025); [intros E; injection E as <-; lia|]. destruct ((p =? 1536) || (p =? 1537)); [intros E; injection E as <-; lia|discriminate].
Qed.
(** A pointer that is not aligned and lies in two pages: the second page gets the
    rights of the first, and code in it cannot be executed any more. *)
Theorem C65_straddle_refuted : exists wb maps m ptr m', bits_ok wb /\ describes wb maps m /\ wf_mem m /\ 0 <= ptr /\ MakePageWritable wb true maps m ptr = Some (m', true) /\
  may m (ptr + 7) 2 /\ ~ may m' (ptr + 7) 2.
Proof.
  exists 64, (Some maps_ex), mem_ex, 4198396, (fst (SetMemAccess 64 true mem_ex 4198396 8 3)). split; [right; reflexivity|]. destruct mem_ex_ok as [D W]. split; [exact D|]. split; [exact W|]. split; [lia|].
  split; [unfold MakePageWritable; rewrite (GetPageBits_spec _ _ _ _ D); reflexivity|]. split; [exists 5; split; reflexivity|]. intros (b & R & T). vm_compute in R. injection R as <-. discriminate.
Qed.
Print Assumptions C65_straddle_refuted.
(** ModuleInMemory is no test for being readable, and it does not find ranges that lie
    in two mappings side by side. *)
Theorem C65_module_refuted : exists t m, describes 64 (Some t) m /\
  (ModuleInMemory 64 (Some t) false 6291456 8 = Some true /\ ~ may m 6291456 0) /\
  (ModuleInMemory 64 (Some t) false 4198396 8 = Some false /\ forall a, 4198396 <= a < 4198404 -> may m a 0).
Proof.
  exists maps_ex, mem_ex. split; [exact (proj1 mem_ex_ok)|]. split; [split; [vm_compute; reflexivity|intros (b & R & T); vm_compute in R; injection R as <-; discriminate]|].
  split; [vm_compute; reflexivity|]. intros a A. assert (X : a = 4198396 \/ a = 4198397 \/ a = 4198398 \/ a = 4198399 \/ a = 4198400 \/ a = 4198401 \/ a = 4198402 \/ a = 4198403) by lia.
  repeat destruct X as [X|X]; subst a; (eexists; split; [vm_compute; reflexivity|reflexivity]).
Qed.
Print Assumptions C65_module_refuted.
(** Without /proc the answer of ModuleInMemory is the wrong way round. *)
Theorem C65_fallback_refuted : forall wb addr len, ModuleInMemory wb None true addr len = Some true /\ ModuleInMemory wb None false addr len = Some false.
Proof. split; reflexivity. Qed.
Print Assumptions C65_fallback_refuted.
(** The branch for FreeBSD never sees that a page can be both read and written. *)
Theorem C65_bsd_refuted : forall r w x, ~ (Z.testbit (bsd_bits r w x) 0 = true /\ Z.testbit (bsd_bits r w x) 1 = true).
Proof.
  intros r w x [A B]. unfold bsd_bits in *. destruct (Ascii.eqb_spec r "r") as [->|]; cbn in *; [discriminate|]. destruct (Ascii.eqb_spec r "w") as [->|]; cbn in *; [discriminate|]. destruct (Ascii.eqb r "x"); discriminate.
Qed.
Print Assumptions C65_bsd_refuted.

(** Non-vacuity: a pointer in read-only memory. *)
Example C65_example : bits_ok 64 /\ slot 64 4194560 /\ describes 64 (Some maps_ex) mem_ex /\ wf_mem mem_ex /\ mapped mem_ex 4194560 /\ ~ writable mem_ex 4194560 /\
  exists m', Revert 64 true (Some maps_ex) false mem_ex 4194560 77 = Some (m', true) /\ word m' 4194560 = 77 /\ rights m' 1024 = Some 3 /\ rights m' 1025 = Some 5.
Proof.
  destruct mem_ex_ok as [D W]. split; [right; reflexivity|]. split; [split; [lia|split; [cbn; lia|reflexivity]]|]. split; [exact D|]. split; [exact W|]. split; [discriminate|].
  split; [intros (b & R & T); vm_compute in R; injection R as <-; discriminate|]. eexists. split; [vm_compute; reflexivity|]. split; [reflexivity|]. split; reflexivity.
Qed.
