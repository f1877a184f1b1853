(** Specification of SourceHook::String: a String is a sequence of characters. *)
From Coq Require Import List ZArith Arith Ascii.
From Verif Require Import ListModel StrModel StrSpec StringModel.
Import ListNotations.
Local Open Scope Z_scope.

Definition texts := nat -> option str.

(** C strings do not contain the terminator *)
Definition no_nul (s : str) : Prop := ~ In NUL s.
(** the size fits into size_t with room to add *)
Definition fits (s : str) : Prop := Z.of_nat (length s) < 2 ^ 62.
Definition sized (z : Z) : Prop := 0 <= z < 2 ^ 64.
(** the argument for "to the end" and the result for "not found" *)
Definition all_ones : Z := 18446744073709551615.

(** lexicographic order by unsigned characters *)
Definition lex_lt (a b : str) : Prop :=
  exists p a' b', a = p ++ a' /\ b = p ++ b' /\
    match a', b' with
    | [], _ :: _ => True
    | c :: _, d :: _ => (nat_of_ascii c < nat_of_ascii d)%nat
    | _, [] => False
    end.
Definition ordered (a b : str) (z : Z) : Prop := (z = 0 <-> a = b) /\ (z < 0 <-> lex_lt a b) /\ (z > 0 <-> lex_lt b a).

Definition char_at (s : str) (i : Z) (c : ascii) : Prop := 0 <= i /\ nth_error s (Z.to_nat i) = Some c.

(** the first position not before [i], or not found *)
Definition first_from (s : str) (c : ascii) (i z : Z) : Prop :=
  (z = all_ones /\ forall j, i <= j -> ~ char_at s j c) \/
  (i <= z /\ char_at s z c /\ forall j, i <= j < z -> ~ char_at s j c).
(** the last position not after [i], or not found *)
Definition last_upto (s : str) (c : ascii) (i z : Z) : Prop :=
  (z = all_ones /\ forall j, j <= i -> ~ char_at s j c) \/
  (z <= i /\ char_at s z c /\ forall j, z < j <= i -> ~ char_at s j c).

(** [num] characters from position [i] (all_ones: the rest) *)
Definition cut_out (s : str) (i num : Z) : str := firstn (Z.to_nat (Z.min num (Z.of_nat (length s)))) (skipn (Z.to_nat (Z.min i (Z.of_nat (length s)))) s).
Definition remove (s : str) (i num : Z) (t : str) : Prop :=
  exists a b c, s = a ++ b ++ c /\ t = a ++ c /\ Z.of_nat (length a) = i /\
    (Z.of_nat (length b) = num \/ (Z.of_nat (length b) < num /\ c = [])).

Definition trimmed (s t : str) : Prop := exists m, trimmed_left s m /\ trimmed_right m t.

Definition replaced (s : str) (i : Z) (c : ascii) (t : str) : Prop :=
  exists a d b, s = a ++ d :: b /\ Z.of_nat (length a) = i /\ (c <> NUL -> t = a ++ c :: b) /\ (c = NUL -> t = a).

(** the text which an argument of a member function denotes *)
Inductive arg_text (s : texts) : cexp -> str -> Prop :=
| at_lit (t : str) : no_nul t -> fits t -> arg_text s (CLit t) t
| at_str (m i : nat) (t : str) : s m = Some t -> (i <= length t)%nat -> arg_text s (CStr m i) (skipn i t).
Definition not_own (l : nat) (e : cexp) : Prop := match e with CStr m _ => m <> l | _ => True end.

(** Calls, and what they do.  Excluded calls of erase: see C30_erase_refuted. *)
Inductive sspec (s : texts) : sop -> texts -> sres -> Prop :=
| sp_new (l : nat) : s l = None -> sspec s (SNew l None) (mset s l (Some [])) SUnit
| sp_new_null (l : nat) : s l = None -> sspec s (SNew l (Some CNull)) (mset s l (Some [])) SUnit
| sp_new_str (l : nat) (e : cexp) (t : str) : s l = None -> arg_text s e t -> sspec s (SNew l (Some e)) (mset s l (Some t)) SUnit
| sp_copy (l m : nat) (t : str) : s l = None -> s m = Some t -> sspec s (SCopy l m) (mset s l (Some t)) SUnit
| sp_destroy (l : nat) (t : str) : s l = Some t -> sspec s (SDestroy l) (mset s l None) SUnit
| sp_assign_null (l : nat) (t : str) : s l = Some t -> sspec s (SAssign l CNull) (mset s l (Some [])) SUnit
| sp_assign (l : nat) (e : cexp) (t u : str) : s l = Some t -> arg_text s e u -> not_own l e ->
    sspec s (SAssign l e) (mset s l (Some u)) SUnit
| sp_append (l : nat) (e : cexp) (t u : str) : s l = Some t -> arg_text s e u -> not_own l e -> fits (t ++ u) ->
    sspec s (SAppend l e) (mset s l (Some (t ++ u))) SUnit
| sp_append_c (l : nat) (c : ascii) (t : str) : s l = Some t -> fits (t ++ [c]) ->
    sspec s (SAppendC l c) (mset s l (Some (if Ascii.eqb c NUL then t else t ++ [c]))) SUnit
| sp_clear (l : nat) (t : str) : s l = Some t -> sspec s (SClear l) (mset s l (Some [])) SUnit
| sp_compare (l : nat) (e : cexp) (t u : str) (z : Z) : s l = Some t -> arg_text s e u -> ordered t u z -> 
    sspec s (SCompare l e) s (SNum z)
| sp_empty (l : nat) (t : str) (b : bool) : s l = Some t -> (b = true <-> t = []) -> sspec s (SEmpty l) s (SBool b)
| sp_size (l : nat) (t : str) : s l = Some t -> sspec s (SSize l) s (SNum (Z.of_nat (length t)))
| sp_text (l : nat) (t : str) : s l = Some t -> sspec s (SText l) s (SStr t)
| sp_find (l : nat) (c : ascii) (i z : Z) (t : str) : s l = Some t -> sized i -> first_from t c i z -> sspec s (SFind l c i) s (SNum z)
| sp_find_last (l : nat) (c : ascii) (i z : Z) (t : str) : s l = Some t -> 0 <= i < Z.of_nat (length t) -> last_upto t c i z ->
    sspec s (SFindLast l c i) s (SNum z)
| sp_trim (l : nat) (t u : str) : s l = Some t -> trimmed t u -> sspec s (STrim l) (mset s l (Some u)) SUnit
| sp_erase (l : nat) (i n : Z) (t u : str) : s l = Some t -> sized i -> sized n ->
    i <= Z.of_nat (length t) -> (i + i + n <= Z.of_nat (length t) \/ Z.of_nat (length t) <= i + n < 2 ^ 64 \/ n = all_ones) ->
    remove t i n u -> sspec s (SErase l i n) (mset s l (Some u)) SUnit
| sp_substr (l m : nat) (i n : Z) (t : str) : s l = None -> s m = Some t -> sized i -> sized n -> (i + n < 2 ^ 64 \/ n = all_ones) ->
    sspec s (SSubstr l m i n) (mset s l (Some (cut_out t i n))) SUnit
| sp_at (l : nat) (i : Z) (c : option ascii) (t : str) : s l = Some t -> sized i ->
    match c with Some c => char_at t i c | None => Z.of_nat (length t) <= i end -> sspec s (SAt l i) s (SChar c)
| sp_put (l : nat) (i : Z) (c : ascii) (t u : str) : s l = Some t -> 0 <= i -> replaced t i c u ->
    sspec s (SPut l i c) (mset s l (Some u)) (SBool true)
| sp_put_out (l : nat) (i : Z) (c : ascii) (t : str) : s l = Some t -> Z.of_nat (length t) <= i ->
    sspec s (SPut l i c) s (SBool false).

Inductive sspecs : texts -> list sop -> texts -> list sres -> Prop :=
| sps_nil (s : texts) : sspecs s [] s []
| sps_cons (s s' s'' : texts) (o : sop) (l : list sop) (r : sres) (rs : list sres) :
    sspec s o s' r -> sspecs s' l s'' rs -> sspecs s (o :: l) s'' (r :: rs).
Definition no_texts : texts := fun _ => None.

(** The calls which are allowed: one for which the specification has an outcome *)
Definition callable (s : texts) (o : sop) : Prop := exists s' r, sspec s o s' r.
Fixpoint all_callable (s : texts) (l : list sop) : Prop :=
  match l with
  | [] => True
  | o :: l => callable s o /\ forall s' r, sspec s o s' r -> all_callable s' l
  end.
