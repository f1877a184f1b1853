(** C33-C36, C38, C53: string utilities. *)
From Coq Require Import List Bool Arith Ascii String Lia.
From Verif Require Import Base StrModel StrSpec StrProofs.
Import ListNotations.
Open Scope nat_scope.

Definition S_ (s : string) : str := list_ascii_of_string s.
Definition B_ (s : string) (n : nat) : buf := S_ s ++ NUL :: repeat "x"%char n.

(** ** C33 path comparison *)
Theorem C33_pathcmp_collapse : forall p1 p2,
  exists r, UTIL_PathCmp p1 p2 = Some r /\ (r = true <-> collapse p1 = collapse p2).
Proof. exact UTIL_PathCmp_spec. Qed.
Print Assumptions C33_pathcmp_collapse.

Example C33_ex1 : UTIL_PathCmp (S_ "/a//b/") (S_ "/a/b//") = Some true. Proof. reflexivity. Qed.
Example C33_ex2 : UTIL_PathCmp (S_ "/a/b") (S_ "/a/b/") = Some false. Proof. reflexivity. Qed.
Example C33_ex3 : UTIL_PathCmp (S_ "//a") (S_ "/A") = Some false. Proof. reflexivity. Qed.

Theorem C33_pathcmp_equivalence :
  (forall p, UTIL_PathCmp p p = Some true) /\
  (forall p q, UTIL_PathCmp p q = UTIL_PathCmp q p) /\
  (forall p q r, UTIL_PathCmp p q = Some true -> UTIL_PathCmp q r = Some true ->
                 UTIL_PathCmp p r = Some true).
Proof.
  split; [|split].
  - intros p. destruct (UTIL_PathCmp_spec p p) as (r&->&H). f_equal. apply H. reflexivity.
  - intros p q. destruct (UTIL_PathCmp_spec p q) as (r1&->&H1).
    destruct (UTIL_PathCmp_spec q p) as (r2&->&H2). f_equal.
    apply eq_true_iff_eq. rewrite H1, H2. split; congruence.
  - intros p q r H1 H2.
    destruct (UTIL_PathCmp_spec p q) as (r1&E1&I1). rewrite E1 in H1. injection H1 as ->.
    destruct (UTIL_PathCmp_spec q r) as (r2&E2&I2). rewrite E2 in H2. injection H2 as ->.
    destruct (UTIL_PathCmp_spec p r) as (r3&->&I3). f_equal. apply I3.
    rewrite (proj1 I1 eq_refl). apply I2. reflexivity.
Qed.
Print Assumptions C33_pathcmp_equivalence.

(** the loader's version, whatever realpath does *)
Theorem C33_mm_pathcmp : forall realpath p1 p2,
  let canon p := match realpath p with Some q => q | None => p end in
  exists r, mm_PathCmp realpath p1 p2 = Some r /\
            (r = true <-> collapse (canon p1) = collapse (canon p2)).
Proof. intros. apply UTIL_PathCmp_spec. Qed.
Print Assumptions C33_mm_pathcmp.

Example C33_mm_ex : mm_PathCmp (fun p => if str_eqb p (S_ "l") then Some (S_ "/t") else None)
                               (S_ "l") (S_ "//t") = Some true.
Proof. reflexivity. Qed.

(** ** C34 bounded formatting *)
Theorem C34_format : forall b n text,
  0 < n -> n <= List.length b -> ~ In NUL text ->
  exists b' k s, FormatArgs b n (Formatted text) = Some (b', k) /\
     cstr b' = Some s /\ k = List.length s /\ k < n /\
     (exists rest, text = s ++ rest /\ (rest = [] \/ k = n - 1)) /\ same_from n b b'.
Proof.
  intros b n text Hn Hb Ht. destruct (FormatArgs_spec b n text Hn Hb Ht) as (b'&k&H1&H2&H3&H4&H5).
  exists b', k, (firstn (n - 1) text). repeat split; auto; try apply H5.
  exists (skipn (n - 1) text). split; [symmetry; apply firstn_skipn|].
  destruct (le_lt_dec (List.length text) (n - 1)).
  - left. apply skipn_all2. assumption.
  - right. rewrite H3, firstn_length. lia.
Qed.
Print Assumptions C34_format.

(** also when vsnprintf reports an error the buffer ends up terminated inside [n] *)
Theorem C34_format_error : forall b n g,
  0 < n -> n <= List.length b -> List.length g = List.length b ->
  exists b' k s, FormatArgs b n (FormatError g) = Some (b', k) /\ cstr b' = Some s /\
                 List.length s < n /\ List.length b' = List.length b.
Proof. exact FormatArgs_error. Qed.
Print Assumptions C34_format_error.

Theorem C34_pathformat : forall b n text,
  0 < n -> n <= List.length b -> ~ In NUL text ->
  exists b' k s, mm_PathFormat b n (Formatted text) = Some (b', k) /\
     cstr b' = Some s /\ k = List.length s /\ k < n /\ ~ In "\"%char s /\
     s = map (fun c => if Ascii.eqb c "\" then "/"%char else c) (firstn (n - 1) text) /\
     same_from n b b'.
Proof. exact mm_PathFormat_spec. Qed.
Print Assumptions C34_pathformat.

Example C34_ex1 : FormatArgs (B_ "12345" 2) 4 (Formatted (S_ "abcdef"))
                  = Some (S_ "abc" ++ [NUL] ++ S_ "5" ++ NUL :: S_ "xx", 3).
Proof. reflexivity. Qed.
Example C34_ex2 : mm_PathFormat (B_ "12345" 2) 8 (Formatted (S_ "a\b/c")) = Some (B_ "a/b/c" 2, 5).
Proof. reflexivity. Qed.
(** what goes wrong with n = 0 (the callers always pass a positive size) *)
Example C34_zero : FormatArgs (B_ "" 2) 0 (Formatted (S_ "a")) = None.
Proof. reflexivity. Qed.

(** ** C35 trimming and comments *)
Theorem C35_trim_left : forall b s, cstr b = Some s ->
  exists b1 b2 t, mm_TrimLeft b = Some b1 /\ UTIL_TrimLeft b = Some b2 /\
    cstr b1 = Some t /\ cstr b2 = Some t /\ trimmed_left s t /\
    same_from (List.length s + 1) b b1 /\ List.length b2 = List.length b.
Proof.
  intros b s H. destruct (mm_TrimLeft_spec _ _ H) as (b1&t1&H1&H2&H3&H4).
  destruct (UTIL_TrimLeft_spec _ _ H) as (b2&t2&G1&G2&G3&G4).
  pose proof (trimmed_left_unique _ _ _ H3 G3). subst t2. eauto 12.
Qed.
Print Assumptions C35_trim_left.

Theorem C35_trim_right : forall b s, cstr b = Some s ->
  exists b1 b2 t, mm_TrimRight b = Some b1 /\ UTIL_TrimRight b = Some b2 /\
    cstr b1 = Some t /\ cstr b2 = Some t /\ trimmed_right s t /\
    same_from (List.length s + 1) b b1 /\ List.length b2 = List.length b.
Proof.
  intros b s H. destruct (mm_TrimRight_spec _ _ H) as (b1&t1&H1&H2&H3&H4).
  destruct (UTIL_TrimRight_spec _ _ H) as (b2&t2&G1&G2&G3&G4).
  pose proof (trimmed_right_unique _ _ _ H3 G3). subst t2. eauto 12.
Qed.
Print Assumptions C35_trim_right.

Theorem C35_trim_comments : forall b s, cstr b = Some s ->
  exists b' t, mm_TrimComments b = Some b' /\ cstr b' = Some t /\ uncommented s t /\
               List.length b' = List.length b.
Proof. exact mm_TrimComments_spec. Qed.
Print Assumptions C35_trim_comments.

(** applying any of the trimmers twice is the same as applying it once *)
Theorem C35_idempotent : forall f, In f [mm_TrimLeft; mm_TrimRight; mm_TrimComments; UTIL_TrimLeft; UTIL_TrimRight] ->
  forall b b' t, f b = Some b' -> cstr b' = Some t ->
  exists b'', f b' = Some b'' /\ cstr b'' = Some t.
Proof.
  assert (forall s t t2, trimmed_left s t -> trimmed_left t t2 -> t2 = t) as HL.
  { intros s t t2 (sp&_&_&N) H. eapply trimmed_left_unique; [exact H|].
    exists []. repeat split; auto. }
  assert (forall s t t2, trimmed_right s t -> trimmed_right t t2 -> t2 = t) as HR.
  { intros s t t2 (sp&_&_&N) H. eapply trimmed_right_unique; [exact H|].
    exists []. rewrite app_nil_r. repeat split; auto. }
  assert (forall f b b', In f [mm_TrimLeft; mm_TrimRight; mm_TrimComments; UTIL_TrimLeft; UTIL_TrimRight] ->
                         f b = Some b' -> exists s, cstr b = Some s) as HS.
  { intros f b b' Hf. cbn in Hf. repeat destruct Hf as [<-|Hf]; try contradiction;
      unfold mm_TrimLeft, mm_TrimRight, mm_TrimComments, UTIL_TrimLeft, UTIL_TrimRight;
      destruct (cstr b); try discriminate; eauto. }
  intros f Hf b b' t Hb Ht. destruct (HS _ _ _ Hf Hb) as [s Hs].
  cbn in Hf. repeat destruct Hf as [<-|Hf]; try contradiction.
  - destruct (mm_TrimLeft_spec _ _ Hs) as (x&y&A1&A2&A3&_). rewrite Hb in A1. injection A1 as <-.
    rewrite Ht in A2; injection A2 as <-.
    destruct (mm_TrimLeft_spec _ _ Ht) as (x&y&B1&B2&B3&_). rewrite (HL _ _ _ A3 B3) in B2. eauto.
  - destruct (mm_TrimRight_spec _ _ Hs) as (x&y&A1&A2&A3&_). rewrite Hb in A1. injection A1 as <-.
    rewrite Ht in A2; injection A2 as <-.
    destruct (mm_TrimRight_spec _ _ Ht) as (x&y&B1&B2&B3&_). rewrite (HR _ _ _ A3 B3) in B2. eauto.
  - destruct (mm_TrimComments_spec _ _ Hs) as (x&y&A1&A2&A3&_). rewrite Hb in A1. injection A1 as <-.
    rewrite Ht in A2; injection A2 as <-.
    destruct (mm_TrimComments_spec _ _ Ht) as (x&y&B1&B2&B3&_).
    apply uncommented_idem in A3. rewrite (uncommented_unique _ _ _ B3 A3) in B2. eauto.
  - destruct (UTIL_TrimLeft_spec _ _ Hs) as (x&y&A1&A2&A3&_). rewrite Hb in A1. injection A1 as <-.
    rewrite Ht in A2; injection A2 as <-.
    destruct (UTIL_TrimLeft_spec _ _ Ht) as (x&y&B1&B2&B3&_). rewrite (HL _ _ _ A3 B3) in B2. eauto.
  - destruct (UTIL_TrimRight_spec _ _ Hs) as (x&y&A1&A2&A3&_). rewrite Hb in A1. injection A1 as <-.
    rewrite Ht in A2; injection A2 as <-.
    destruct (UTIL_TrimRight_spec _ _ Ht) as (x&y&B1&B2&B3&_). rewrite (HR _ _ _ A3 B3) in B2. eauto.
Qed.
Print Assumptions C35_idempotent.

(** the specifications determine the result *)
Theorem C35_spec_functional : forall s t1 t2,
  (trimmed_left s t1 -> trimmed_left s t2 -> t1 = t2) /\
  (trimmed_right s t1 -> trimmed_right s t2 -> t1 = t2) /\
  (uncommented s t1 -> uncommented s t2 -> t1 = t2).
Proof.
  intros. split; [apply trimmed_left_unique|split; [apply trimmed_right_unique|apply uncommented_unique]].
Qed.
Print Assumptions C35_spec_functional.

Example C35_ex1 : cstr (match mm_TrimLeft (B_ "  a b " 3) with Some b => b | None => [] end) = Some (S_ "a b ").
Proof. reflexivity. Qed.
Example C35_ex2 : cstr (match mm_TrimRight (B_ "  a b  " 0) with Some b => b | None => [] end) = Some (S_ "  a b").
Proof. reflexivity. Qed.
Example C35_ex3 : cstr (match mm_TrimComments (B_ "a/b // c // d" 0) with Some b => b | None => [] end) = Some (S_ "a/b ").
Proof. reflexivity. Qed.
Example C35_ex4 : cstr (match UTIL_TrimRight (B_ "    " 0) with Some b => b | None => [] end) = Some [].
Proof. reflexivity. Qed.
Example C35_ex5 : cstr (match mm_TrimComments (B_ "a///b" 0) with Some b => b | None => [] end) = Some (S_ "a").
Proof. reflexivity. Qed.

(** ** C36 key/value lines *)
Theorem C36_keysplit : forall s b1 l1 b2 l2,
  ~ In NUL s -> l1 + 1 <= List.length b1 -> l2 + 1 <= List.length b2 ->
  exists b1' b2' key value,
    mm_KeySplit s b1 l1 b2 l2 = Some (b1', b2') /\
    key_value s key value /\
    cstr b1' = Some (firstn l1 key) /\ cstr b2' = Some (firstn l2 value) /\
    same_from (l1 + 1) b1 b1' /\ same_from (l2 + 1) b2 b2'.
Proof. exact mm_KeySplit_spec. Qed.
Print Assumptions C36_keysplit.

(** [key_value] determines key and value *)
Theorem C36_key_value_unique : forall s k1 v1 k2 v2,
  key_value s k1 v1 -> key_value s k2 v2 -> k1 = k2 /\ v1 = v2.
Proof. exact key_value_unique. Qed.
Print Assumptions C36_key_value_unique.

(** the buffers really need len+1 bytes: with exactly [l1] bytes the
    terminator of a long key is written one past the end *)
Example C36_needs_one_more : mm_KeySplit (S_ "abc d") (repeat "x"%char 2) 2 (B_ "" 4) 4 = None.
Proof. reflexivity. Qed.

Example C36_ex : match mm_KeySplit (S_ " Game  |gameinfo_path|. x") (B_ "" 9) 9 (B_ "" 30) 30 with
                 | Some (a, b) => (cstr a, cstr b) = (Some (S_ "Game"), Some (S_ "|gameinfo_path|. x"))
                 | None => False end.
Proof. reflexivity. Qed.

(** ** C38 patterns *)
(** the true part: the first match that does not touch the very end of its region,
    and nothing outside the regions is read *)
Theorem C38_findpattern_partial : forall regions pat idx,
  exists res, mm_FindPattern regions pat idx = Some res /\
  match res with
  | Some (i, off) =>
      exists pre r post, regions = pre ++ r :: post /\ i = idx + List.length pre /\
        occurs_at r pat off /\ off + List.length pat < List.length r /\
        (forall o, o < off -> ~ occurs_at r pat o) /\
        (forall r' o, In r' pre -> o + List.length pat < List.length r' -> ~ occurs_at r' pat o)
  | None => forall r o, In r regions -> o + List.length pat < List.length r -> ~ occurs_at r pat o
  end.
Proof. exact mm_FindPattern_spec. Qed.
Print Assumptions C38_findpattern_partial.

Example C38_ex : mm_FindPattern [S_ "abc"; S_ "xabdabe!"] (S_ "a*e") 0 = Some (Some (1, 4)).
Proof. reflexivity. Qed.

(** the full statement (None iff there is no match in any region) is false *)
Theorem C38_findpattern_refuted :
  ~ (forall regions pat, mm_FindPattern regions pat 0 = Some None ->
                         forall r o, In r regions -> ~ occurs_at r pat o).
Proof.
  intros H. specialize (H [S_ "xxab"] (S_ "ab") eq_refl (S_ "xxab") 2 (or_introl eq_refl)).
  apply H. split; [cbn; lia|]. cbn. repeat constructor; right; reflexivity.
Qed.
Print Assumptions C38_findpattern_refuted.

Theorem C38_verify_signature : forall mem sig, List.length sig <= List.length mem ->
  exists r, UTIL_VerifySignature mem sig (List.length sig) = Some r /\ (r = true <-> occurs_at mem sig 0).
Proof. intros. apply VerifySignature_spec. assumption. Qed.
Print Assumptions C38_verify_signature.

Example C38_ex_sig : UTIL_VerifySignature (S_ "abcde") (S_ "a*c") 3 = Some true
                     /\ UTIL_VerifySignature (S_ "abxde") (S_ "a*c") 3 = Some false.
Proof. split; reflexivity. Qed.

(** ** C53 command line argument *)
Theorem C53_command_argument : forall args name b n,
  0 < n -> n <= List.length b -> (forall a, In a args -> ~ In NUL a) ->
  exists r b', arg_value args name r /\
    mm_GetCommandArgument (Some args) name (Some b) n
       = Some (match r with None => false | Some _ => true end, Some b') /\
    cstr b' = Some (match r with Some (Some v) => firstn (n - 1) v | _ => [] end) /\
    same_from n b b'.
Proof.
  intros args name b n Hn Hb Ha. destruct (arg_value_total args name) as [r Hr].
  destruct (mm_GetCommandArgument_spec args name b n r Hn Hb Ha Hr) as (b'&H1&H2&H3). eauto 8.
Qed.
Print Assumptions C53_command_argument.

Theorem C53_presence_only : forall args name n,
  mm_GetCommandArgument (Some args) name None n = Some (true, None) /\ In name args \/
  mm_GetCommandArgument (Some args) name None n = Some (false, None) /\ ~ In name args.
Proof. exact mm_GetCommandArgument_nobuf. Qed.
Print Assumptions C53_presence_only.

Theorem C53_arg_value_functional : forall args name r1 r2,
  arg_value args name r1 -> arg_value args name r2 -> r1 = r2.
Proof. exact arg_value_unique. Qed.
Print Assumptions C53_arg_value_functional.

Example C53_ex1 : match mm_GetCommandArgument (Some [S_ "srcds"; S_ "-game"; S_ "cstrike"; S_ "-x"]) (S_ "-game") (Some (B_ "" 5)) 5
                  with Some (r, Some b) => (r, cstr b) = (true, Some (S_ "cstr")) | _ => False end.
Proof. reflexivity. Qed.
Example C53_ex2 : match mm_GetCommandArgument (Some [S_ "srcds"; S_ "-game"; S_ "-x"]) (S_ "-game") (Some (B_ "" 5)) 5
                  with Some (r, Some b) => (r, cstr b) = (true, Some []) | _ => False end.
Proof. reflexivity. Qed.

(** ** C56 file extension *)
Theorem C56_extension : forall s,
  exists r, UTIL_GetExtension s = Some r /\
    match r with Some e => extension s e | None => forall e, ~ extension s e end.
Proof. exact UTIL_GetExtension_spec. Qed.
Print Assumptions C56_extension.

Theorem C56_extension_unique : forall s e1 e2, extension s e1 -> extension s e2 -> e1 = e2.
Proof. exact extension_unique. Qed.
Print Assumptions C56_extension_unique.

Example C56_ex : UTIL_GetExtension (S_ "a.b/c.tar.gz") = Some (Some (S_ "gz"))
              /\ UTIL_GetExtension (S_ "a.b/c") = Some None
              /\ UTIL_GetExtension (S_ "x.so.") = Some (Some (S_ "so.")).
Proof. repeat split. Qed.
