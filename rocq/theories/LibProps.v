(** C85: a text is looked for in the memory of a library exactly where the library is mapped and readable. *)
From Coq Require Import List ZArith Bool Lia String Ascii.
From Verif Require Import LibModel LibSpec LibProofs.
Import ListNotations.
Local Open Scope Z_scope.
Notation length := List.length.

(** the types and sizes of the platform *)
Definition linux (b64 : bool) : layout := if b64 then elf64 else elf32.
Definition bytes_of_pointer (b64 : bool) : nat := if b64 then 8%nat else 4%nat.
(** the ranges that should be searched *)
Definition ranges (page bias : Z) (e : elf) : list (Z * Z) := map (file_pages page bias) (filter (fun s => load s && can_read s) (segs e)).

(** Linux: for a loaded shared library the ranges are the pages of its readable segments; no byte outside the library's
    headers is read. *)
Theorem C85_elf_ranges : forall b64 e page m bias base, loaded b64 e page m bias base -> shared_library b64 e ->
  exists hi, highest page e hi /\
  get_elf (linux b64) m page (Some base) = Some (Some (LibInfo base (hi - (base - bias)) (ranges page bias e))).
Proof. intros b64 e page m bias base. exact (get_elf_ok b64 e page m bias base). Qed.
Print Assumptions C85_elf_ranges.

(** A file of another kind, or for another processor, is turned down from its header alone. *)
Theorem C85_elf_other : forall b64 e page m base, holds m base (ehdr b64 e) -> header_ok e -> 0 <= base -> base + 64 <= space b64 ->
  ~ shared_library b64 e -> get_elf (linux b64) m page (Some base) = Some None.
Proof. intros b64 e page m base. exact (get_elf_other b64 e page m base). Qed.
Print Assumptions C85_elf_other.

(** The search reads mapped memory only, ends, and gives the first match in these ranges that does not end at the last byte
    of a range. *)
Theorem C85_elf_find : forall b64 e page m bias base pat, loaded b64 e page m bias base -> shared_library b64 e -> Z.of_nat (length pat) <= base ->
  exists a, find_pattern (bytes_of_pointer b64) m (get_elf (linux b64) m page (Some base)) pat = Some a /\
            answer strictly_in m pat (ranges page bias e) a.
Proof.
  intros b64 e page m bias base pat Hl Hs Hp. destruct (C85_elf_ranges _ _ _ _ _ _ Hl Hs) as (hi & _ & E). rewrite E. cbn [find_pattern searchable].
  replace (bytes_of_pointer b64) with (word (lay b64)) by (destruct b64; reflexivity). apply search_ok. apply elf_ranges with (base := base); assumption.
Qed.
Print Assumptions C85_elf_find.

(** So a text in the contents of a readable segment is found, unless it ends with the last byte of the segment's last page. *)
Theorem C85_elf_found : forall b64 e page m bias base pat s q, loaded b64 e page m bias base -> shared_library b64 e -> Z.of_nat (length pat) <= base ->
  In s (segs e) -> load s = true -> can_read s = true -> occurs m pat q ->
  bias + p_vaddr s <= q -> q + Z.of_nat (length pat) <= bias + p_vaddr s + p_filesz s -> q + Z.of_nat (length pat) <> bias + up page (p_vaddr s + p_filesz s) ->
  exists p, find_pattern (bytes_of_pointer b64) m (get_elf (linux b64) m page (Some base)) pat = Some (Some p) /\ occurs m pat p.
Proof.
  intros b64 e page m bias base pat s q Hl Hs Hp Hi H1 H2 Ho Hq1 Hq2 Hq3. destruct (C85_elf_find _ _ _ _ _ _ pat Hl Hs Hp) as (a & E & A). rewrite E.
  destruct a as [p|]; [exists p; split; [reflexivity|]; destruct A as (? & ? & ? & _ & _ & O & _); exact O|].
  exfalso. destruct Hl as [(k & Hk & ->) _ _ _ _ _ _ _ _ _]. pose proof (page_pos k Hk) as Pp.
  pose proof (down_le (2 ^ k) (p_vaddr s) Pp). pose proof (up_ge (2 ^ k) (p_vaddr s + p_filesz s) Pp).
  apply (A (file_pages (2 ^ k) bias s) q); [|split; unfold file_pages; cbn [fst snd]; lia|exact Ho].
  unfold ranges. apply in_map. apply filter_In. split; [exact Hi|]. rewrite H1, H2. reflexivity.
Qed.
Print Assumptions C85_elf_found.

(** ** An example: three program headers, the second segment writable with data at the end of its page *)
Definition text (s : string) : list Z := map (fun c => Z.of_N (N_of_ascii c)) (list_ascii_of_string s).
Definition ex_segs : list seg :=
  [Seg 1 5 0 0 0 0x2000 0x2000 0x1000; Seg 2 6 0x2000 0x2e00 0x2e00 0x100 0x100 8; Seg 1 6 0x2000 0x2e00 0x2e00 0x200 0x800 0x1000].
Definition ex_elf : elf := Elf 2 1 1 0 0 3 62 1 0 64 0 0 64 56 0 0 0 ex_segs.
Definition ex_base : Z := 0x7f3214560000.
Definition ex_headers : list Z := ehdr true ex_elf ++ phdrs true ex_elf.
Definition ex_byte (t : list Z) (at_ o : Z) : Z := if o <? 232 then nth (Z.to_nat o) ex_headers 0 else if o <? at_ then 0 else nth (Z.to_nat (o - at_)) t 0.
Definition ex_mem (t : list Z) (at_ : Z) : memory := fun x => if (ex_base <=? x) && (x <? ex_base + 0x4000) then Some (ex_byte t at_ (x - ex_base)) else None.
Fixpoint holdsb (m : memory) (a : Z) (l : list Z) : bool :=
  match l with [] => true | b :: l => match m a with Some c => b =? c | None => false end && holdsb m (a + 1) l end.
Lemma holdsb_ok m l : forall a, holdsb m a l = true -> holds m a l.
Proof.
  induction l as [|b l IH]; intros a H i c Hi; cbn [holdsb] in H; [destruct i; discriminate|].
  apply andb_true_iff in H as [H1 H2]. destruct i as [|i]; cbn [nth_error] in Hi.
  - injection Hi as <-. rewrite Z.add_0_r. destruct (m a); [|discriminate]. apply Z.eqb_eq in H1. congruence.
  - rewrite <- (IH (a + 1) H2 i c Hi). f_equal. lia.
Qed.
Lemma ex_readable t at_ a b : ex_base <= a -> b <= ex_base + 0x4000 -> readable (ex_mem t at_) a b.
Proof. intros H1 H2 x Hx. unfold ex_mem. destruct (Z.leb_spec ex_base x); [|lia]. destruct (Z.ltb_spec x (ex_base + 0x4000)); [discriminate|lia]. Qed.
Lemma ex_loaded t at_ : 232 <= at_ -> loaded true ex_elf 0x1000 (ex_mem t at_) ex_base ex_base /\ shared_library true ex_elf.
Proof.
  intros Ht. split; [|repeat split]. split.
  - exists 12. split; [lia|reflexivity].
  - split; [exists (nth 0 ex_segs (Seg 0 0 0 0 0 0 0 0)); repeat split; left; reflexivity|].
    intros s [<-|[<-|[<-|[]]]] H; vm_compute; discriminate.
  - vm_compute. discriminate.
  - repeat (constructor; [unfold fits; cbn; unfold space; lia|]). constructor.
  - repeat (constructor; [intros _; vm_compute; discriminate|]). constructor.
  - reflexivity.
  - split; [vm_compute; discriminate|]. split; [reflexivity|vm_compute; discriminate].
  - assert (A : forall i b, nth_error ex_headers i = Some b -> ex_mem t at_ (ex_base + Z.of_nat i) = Some b).
    { intros i b Hi. assert (Hl : (i < 232)%nat) by (change 232%nat with (length ex_headers); apply nth_error_Some; congruence).
      unfold ex_mem. replace ((ex_base <=? ex_base + Z.of_nat i) && (ex_base + Z.of_nat i <? ex_base + 0x4000)) with true by (symmetry; apply andb_true_iff; split; [apply Z.leb_le; lia|apply Z.ltb_lt; lia]).
      unfold ex_byte. replace (ex_base + Z.of_nat i - ex_base) with (Z.of_nat i) by lia. destruct (Z.ltb_spec (Z.of_nat i) 232) as [_|C]; [|lia]. rewrite Nat2Z.id. f_equal. apply nth_error_nth. exact Hi. }
    exact (proj1 (holds_app _ _ (ehdr true ex_elf) (phdrs true ex_elf) A)).
  - assert (A : forall i b, nth_error ex_headers i = Some b -> ex_mem t at_ (ex_base + Z.of_nat i) = Some b).
    { intros i b Hi. assert (Hl : (i < 232)%nat) by (change 232%nat with (length ex_headers); apply nth_error_Some; congruence).
      unfold ex_mem. replace ((ex_base <=? ex_base + Z.of_nat i) && (ex_base + Z.of_nat i <? ex_base + 0x4000)) with true by (symmetry; apply andb_true_iff; split; [apply Z.leb_le; lia|apply Z.ltb_lt; lia]).
      unfold ex_byte. replace (ex_base + Z.of_nat i - ex_base) with (Z.of_nat i) by lia. destruct (Z.ltb_spec (Z.of_nat i) 232) as [_|C]; [|lia]. rewrite Nat2Z.id. f_equal. apply nth_error_nth. exact Hi. }
    exact (proj2 (holds_app _ _ (ehdr true ex_elf) (phdrs true ex_elf) A)).
  - intros s [<-|[<-|[<-|[]]]] H1 H2; apply ex_readable; vm_compute; discriminate.
Qed.
Example C85_example : loaded true ex_elf 0x1000 (ex_mem (text "DT_CSPlayerResource") 0x2f00) ex_base ex_base /\ shared_library true ex_elf /\
  ranges 0x1000 ex_base ex_elf = [(ex_base, ex_base + 0x2000); (ex_base + 0x2000, ex_base + 0x3000)] /\
  find_pattern 8 (ex_mem (text "DT_CSPlayerResource") 0x2f00) (get_elf elf64 (ex_mem (text "DT_CSPlayerResource") 0x2f00) 0x1000 (Some ex_base)) (text "DT_*SPlayerRes") = Some (Some (ex_base + 0x2f00)) /\
  find_pattern 8 (ex_mem (text "DT_CSPlayerResource") 0x2f00) (get_elf elf64 (ex_mem (text "DT_CSPlayerResource") 0x2f00) 0x1000 (Some ex_base)) (text "DT_TF") = Some None.
Proof.
  destruct (ex_loaded (text "DT_CSPlayerResource") 0x2f00 ltac:(lia)) as [A B]. split; [exact A|]. split; [exact B|].
  split; [reflexivity|]. split; vm_compute; reflexivity.
Qed.

(** The last byte of a range is not looked at: a text that ends there is missed. *)
Theorem C85_last_byte_refuted :
  ~ (forall b64 e page m bias base pat a, loaded b64 e page m bias base -> shared_library b64 e -> Z.of_nat (length pat) <= base ->
       find_pattern (bytes_of_pointer b64) m (get_elf (linux b64) m page (Some base)) pat = Some a -> answer within m pat (ranges page bias e) a).
Proof.
  intros H. destruct (ex_loaded (text "metamod") 0x2ff9 ltac:(lia)) as [A B].
  assert (C : Z.of_nat (length (text "metamod")) <= ex_base) by (vm_compute; discriminate).
  pose proof (H _ _ _ _ _ _ (text "metamod") None A B C) as D. clear H.
  assert (E : find_pattern 8 (ex_mem (text "metamod") 0x2ff9) (get_elf elf64 (ex_mem (text "metamod") 0x2ff9) 0x1000 (Some ex_base)) (text "metamod") = Some None) by (vm_compute; reflexivity).
  specialize (D E). apply (D (ex_base + 0x2000, ex_base + 0x3000) (ex_base + 0x2ff9)).
  - right. left. reflexivity.
  - split; vm_compute; discriminate.
  - intros i c Hi. right. revert i c Hi. apply holdsb_ok. vm_compute. reflexivity.
Qed.
Print Assumptions C85_last_byte_refuted.

(** Nor is a text found that begins in one range and ends in the next, though the memory of the library goes on without a gap. *)
Theorem C85_split_refuted :
  ~ (forall b64 e page m bias base pat p, loaded b64 e page m bias base -> shared_library b64 e -> Z.of_nat (length pat) <= base ->
       (forall x, p <= x < p + Z.of_nat (length pat) -> exists r, In r (ranges page bias e) /\ fst r <= x < snd r) -> occurs m pat p ->
       find_pattern (bytes_of_pointer b64) m (get_elf (linux b64) m page (Some base)) pat <> Some None).
Proof.
  intros H. destruct (ex_loaded (text "metamod") 0x1ffc ltac:(lia)) as [A B].
  apply (H _ _ _ _ _ _ (text "metamod") (ex_base + 0x1ffc) A B).
  - vm_compute. discriminate.
  - intros x Hx. change (Z.of_nat (length (text "metamod"))) with 7 in Hx. change (ranges 0x1000 ex_base ex_elf) with [(ex_base, ex_base + 0x2000); (ex_base + 0x2000, ex_base + 0x3000)].
    destruct (Z.lt_ge_cases x (ex_base + 0x2000)); [exists (ex_base, ex_base + 0x2000)|exists (ex_base + 0x2000, ex_base + 0x3000)]; (split; [cbn [In]; tauto|cbn [fst snd]; lia]).
  - intros i c Hi. right. revert i c Hi. apply holdsb_ok. vm_compute. reflexivity.
  - vm_compute. reflexivity.
Qed.
Print Assumptions C85_split_refuted.

(** Windows: the whole image of a library is searched; other files are turned down. *)
Theorem C85_pe_find : forall b64 p m base, pe_loaded b64 p m base -> pe_shape p -> Forall (fun x => 0 <= x < 256) (dos p) ->
  (~ pe_library b64 p -> get_pe (bytes_of_pointer b64) m (Some base) = Some None) /\
  (pe_library b64 p ->
   get_pe (bytes_of_pointer b64) m (Some base) = Some (Some (LibInfo base (image_size p) [(base, base + image_size p)])) /\
   forall pat, Z.of_nat (length pat) <= base ->
   exists a, find_pattern (bytes_of_pointer b64) m (get_pe (bytes_of_pointer b64) m (Some base)) pat = Some a /\
             answer strictly_in m pat [(base, base + image_size p)] a).
Proof.
  intros b64 p m base Hl Hs Hd. destruct (get_pe_eq b64 p m base Hl Hs Hd) as [A B]. split; [exact B|]. intros L. specialize (A L). split; [exact A|].
  intros pat Hp. change (bytes_of_pointer b64) with (pn b64). rewrite A. cbn [find_pattern searchable]. apply search_ok.
  destruct Hl as [Hb [R1 R2] _ Hi]. destruct Hs as (_ & _ & _ & _ & _ & _ & _ & _ & S9).
  constructor; [|constructor]. unfold range_ok. cbn [fst snd]. rewrite pn_W. split; [lia|exact Hi].
Qed.
Print Assumptions C85_pe_find.
Definition ex_pe : pe := Pe (0x4d :: 0x5a :: repeat 0 58) 128 (repeat 7 64) 0x4550 0x8664 6 0 0 0 240 0x2022 0x20b (repeat 3 54) 0x2000.
Definition ex_pe_mem : memory := fun x => if (0x180000000 <=? x) && (x <? 0x180002000) then
  let o := x - 0x180000000 in Some (if o <? 212 then nth (Z.to_nat o) (pe_header ex_pe) 0 else nth (Z.to_nat (o - 0x1800)) (if o <? 0x1800 then [] else text "DT_TFPlayerResource") 0) else None.
Example C85_pe_example : pe_loaded true ex_pe ex_pe_mem 0x180000000 /\ pe_shape ex_pe /\ Forall (fun x => 0 <= x < 256) (dos ex_pe) /\ pe_library true ex_pe /\
  find_pattern 8 ex_pe_mem (get_pe 8 ex_pe_mem (Some 0x180000000)) (text "DT_TFPlayerResource") = Some (Some 0x180001800).
Proof.
  split; [|split; [|split; [|split]]].
  - split; [lia|split; [reflexivity|vm_compute; discriminate]|apply holdsb_ok; vm_compute; reflexivity|].
    change (image_size ex_pe) with 0x2000. intros x Hx. unfold ex_pe_mem. destruct (Z.leb_spec 0x180000000 x); [|lia]. destruct (Z.ltb_spec x 0x180002000); [discriminate|lia].
  - unfold pe_shape. cbn -[Z.pow]. repeat split; try reflexivity; lia.
  - repeat (constructor; [lia|]). constructor.
  - repeat split.
  - vm_compute. reflexivity.
Qed.

(** macOS: the sizes of the segments are added up, which is right if they adjoin and begin at the header. *)
Theorem C85_macho_find : forall b64 h m bias base, macho_loaded b64 h m bias base -> macho_ok b64 h ->
  (~ macho_library b64 h -> get_macho (bytes_of_pointer b64) m (Some base) = Some None) /\
  (macho_library b64 h ->
   get_macho (bytes_of_pointer b64) m (Some base) = Some (Some (LibInfo base (total h) [(base, base + total h)])) /\
   (adjoining (base - bias) (segments h) -> forall pat, Z.of_nat (length pat) <= base ->
    exists a, find_pattern (bytes_of_pointer b64) m (get_macho (bytes_of_pointer b64) m (Some base)) pat = Some a /\
              answer strictly_in m pat [(base, base + total h)] a)).
Proof.
  intros b64 h m bias base Hl Ho. destruct (macho_eq b64 h m bias base Hl Ho) as [A B]. split; [exact B|]. intros L. specialize (A L). split; [exact A|].
  intros Ha pat Hp. change (bytes_of_pointer b64) with (pn b64). rewrite A. cbn [find_pattern searchable]. apply search_ok.
  destruct Hl as [Hb [R1 R2] _ Hi]. pose proof (adjoining_readable m bias (segments h) _ Ha Hi) as R. rewrite <- vmsizes_eq in R. fold (total h) in R.
  replace (bias + (base - bias)) with base in R by lia.
  assert (T : 0 <= total h).
  { destruct Ho as (_ & _ & _ & _ & _ & M6). unfold total, vmsizes. clear -M6. induction M6 as [|c l Hc Hl IH]; [cbn; lia|]. destruct c; cbn [flat_map app fold_right lcmd_ok] in *; [destruct Hc as (_ & _ & ? & _)|]; lia. }
  constructor; [|constructor]. unfold range_ok. cbn [fst snd]. rewrite pn_W. split; [lia|exact R].
Qed.
Print Assumptions C85_macho_find.
Definition ex_macho (second : Z) : macho := Macho 0xfeedfacf 0x01000007 3 6 0 0
  [Segment (repeat 0 16) 0 0x1000 (repeat 0 32); Other 2 (repeat 0 16); Segment (repeat 0 16) second 0x1000 (repeat 0 32)].
Definition ex_macho_mem (second : Z) : memory := fun x =>
  if (0x100000000 <=? x) && (x <? 0x100001000) then Some (nth (Z.to_nat (x - 0x100000000)) (macho_bytes true (ex_macho second)) 0)
  else if (0x100000000 + second <=? x) && (x <? 0x100000000 + second + 0x1000) then Some 0x41 else None.
Lemma ex_macho_loaded second : 0x1000 <= second < 2 ^ 20 -> holdsb (ex_macho_mem second) 0x100000000 (macho_bytes true (ex_macho second)) = true ->
  macho_loaded true (ex_macho second) (ex_macho_mem second) 0x100000000 0x100000000 /\ macho_ok true (ex_macho second) /\ macho_library true (ex_macho second).
Proof.
  intros Hs Hh. split; [|split; [|repeat split]].
  - split; [lia|split; reflexivity|apply holdsb_ok; exact Hh|].
    intros a n [E|[E|[]]]; injection E as <- <-; intros x Hx; unfold ex_macho_mem.
    + destruct (Z.leb_spec 0x100000000 x); [|lia]. destruct (Z.ltb_spec x 0x100001000); [discriminate|lia].
    + destruct ((0x100000000 <=? x) && (x <? 0x100001000)); [discriminate|]. destruct (Z.leb_spec (0x100000000 + second) x); [|lia]. destruct (Z.ltb_spec x (0x100000000 + second + 0x1000)); [discriminate|lia].
  - unfold macho_ok. cbn [mh_magic mh_cputype mh_cpusubtype mh_filetype cmds ex_macho]. repeat split; try lia; try reflexivity.
    repeat constructor; cbn; try reflexivity; try lia; unfold space; lia.
Qed.
Example C85_macho_example : macho_loaded true (ex_macho 0x1000) (ex_macho_mem 0x1000) 0x100000000 0x100000000 /\ macho_ok true (ex_macho 0x1000) /\
  macho_library true (ex_macho 0x1000) /\ adjoining (0x100000000 - 0x100000000) (segments (ex_macho 0x1000)) /\
  find_pattern 8 (ex_macho_mem 0x1000) (get_macho 8 (ex_macho_mem 0x1000) (Some 0x100000000)) [0x41; 0x41] = Some (Some 0x100001000).
Proof.
  destruct (ex_macho_loaded 0x1000) as (A & B & C); [lia|vm_compute; reflexivity|].
  split; [exact A|]. split; [exact B|]. split; [exact C|]. split; [repeat split|vm_compute; reflexivity].
Qed.
(** With a gap between two segments the search runs into memory that is not mapped. *)
Theorem C85_macho_gap_refuted :
  ~ (forall b64 h m bias base pat, macho_loaded b64 h m bias base -> macho_ok b64 h -> macho_library b64 h -> Z.of_nat (length pat) <= base ->
       find_pattern (bytes_of_pointer b64) m (get_macho (bytes_of_pointer b64) m (Some base)) pat <> None).
Proof.
  intros H. destruct (ex_macho_loaded 0x2000) as (A & B & C); [lia|vm_compute; reflexivity|].
  apply (H _ _ _ _ _ [0x41; 0x41] A B C); [cbn; lia|vm_compute; reflexivity].
Qed.
Print Assumptions C85_macho_gap_refuted.
