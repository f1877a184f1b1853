(** Specifications for the string utilities. *)
From Coq Require Import List Arith Ascii Bool.
From Verif Require Import StrModel.
Import ListNotations.
Open Scope nat_scope.

(** \t \n \v \f \r and space *)
Definition white (c : ascii) : Prop :=
  In c (map ascii_of_nat [9; 10; 11; 12; 13; 32]).

Definition starts_white (s : str) : Prop := exists c t, s = c :: t /\ white c.
Definition ends_white (s : str) : Prop := exists c t, s = t ++ [c] /\ white c.

Definition trimmed_left (s t : str) : Prop :=
  exists sp, s = sp ++ t /\ Forall white sp /\ ~ starts_white t.
Definition trimmed_right (s t : str) : Prop :=
  exists sp, s = t ++ sp /\ Forall white sp /\ ~ ends_white t.

Definition slashes : str := ["/"; "/"]%char.

(** [t] is the text of [s] before the first "//" *)
Definition uncommented (s t : str) : Prop :=
  (t = s /\ forall a b, s <> a ++ slashes ++ b) \/
  (exists rest, s = t ++ slashes ++ rest /\
                forall a b, s = a ++ slashes ++ b -> length t <= length a).

(** [s] is [key] then white space then [value] (with leading white space) *)
Definition key_value (s key value : str) : Prop :=
  exists sp1 sp2,
    s = sp1 ++ key ++ sp2 ++ value /\ Forall white sp1 /\ Forall white sp2 /\
    (forall c, In c key -> ~ white c) /\ ~ starts_white value /\
    (key = [] -> sp2 = [] /\ value = []) /\ (sp2 = [] -> value = []).

(** Replace every run of '/' by one '/'. *)
Fixpoint collapse (s : str) : str :=
  match s with
  | [] => []
  | c :: s' =>
      match s' with
      | d :: _ => if Ascii.eqb c "/" && Ascii.eqb d "/" then collapse s' else c :: collapse s'
      | [] => [c]
      end
  end.

(** The bytes at and after position [n] are the same. *)
Definition same_from (n : nat) (a b : buf) : Prop :=
  length a = length b /\ skipn n a = skipn n b.

(** Pattern [pat] ('*' = any byte) occurs in [mem] at offset [off]. *)
Definition byte_ok (p m : ascii) : Prop := p = "*"%char \/ p = m.
Definition occurs_at (mem pat : list ascii) (off : nat) : Prop :=
  off + length pat <= length mem /\
  Forall2 byte_ok pat (firstn (length pat) (skipn off mem)).

(** What the command line says about [name]. *)
Inductive arg_value (args : list str) (name : str) : option (option str) -> Prop :=
| arg_absent : ~ In name args -> arg_value args name None
| arg_last pre : args = pre ++ [name] -> ~ In name pre -> arg_value args name (Some None)
| arg_dash pre v post : args = pre ++ name :: ("-"%char :: v) :: post -> ~ In name pre ->
                        arg_value args name (Some None)
| arg_val pre v post : args = pre ++ name :: v :: post -> ~ In name pre ->
                       (forall t, v <> "-"%char :: t) -> arg_value args name (Some (Some v)).

(** [e] is the extension of file name [s]: the text after the last dot of the
    last path component, where a dot in last position does not count. *)
Definition is_sep (c : ascii) : Prop := c = "/"%char \/ c = "\"%char.
Definition extension (s e : str) : Prop :=
  e <> [] /\ (exists a, s = a ++ "."%char :: e) /\
  (forall c, In c e -> ~ is_sep c) /\ ~ In "."%char (removelast e).
