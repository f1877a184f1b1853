(** Specification of interface names: a base name and a decimal version. *)
From Coq Require Import List ZArith Ascii.
From Verif Require Import StrModel.
Import ListNotations.
Local Open Scope list_scope.
Local Open Scope Z_scope.

Definition digits : list ascii := ["0"; "1"; "2"; "3"; "4"; "5"; "6"; "7"; "8"; "9"]%char.
Definition numeral (s : str) : Prop := s <> [] /\ Forall (fun c => In c digits) s.
(** the number a numeral denotes *)
Definition value (s : str) : Z :=
  fold_left (fun v c => 10 * v + (Z.of_nat (nat_of_ascii c) - 48)) s 0.

(** [p] is a base name: it does not end in a digit (and is not empty) *)
Definition base (p : str) : Prop := exists q c, p = q ++ [c] /\ ~ In c digits.

(** version [v] in three digits, for 0 <= v < 1000 *)
Definition ver (v : Z) : str :=
  [nth (Z.to_nat (v / 100)) digits "?"%char;
   nth (Z.to_nat (v / 10 mod 10)) digits "?"%char;
   nth (Z.to_nat (v mod 10)) digits "?"%char].

(** [v], [v+1], ..., [n] numbers *)
Fixpoint upfrom (v : Z) (n : nat) : list Z :=
  match n with O => [] | S n => v :: upfrom (v + 1) n end.

(** Asking a factory for the names of a list, in order, until one is answered. *)
Section First.
Variable ptr : Type.
Variable fn : list str -> str -> option ptr.
Fixpoint first_answer (asked names : list str) : option ptr * list str :=
  match names with
  | [] => (None, asked)
  | x :: names =>
      match fn asked x with
      | Some p => (Some p, asked ++ [x])
      | None => first_answer (asked ++ [x]) names
      end
  end.
End First.
