(** What can be seen of a console command, stated without the model of the command. *)
From Coq Require Import List ZArith Bool Ascii String DecimalString.
From Verif Require Import ListModel StrModel StrSpec PlugModel PlugSpec.
Import ListNotations.
Local Open Scope list_scope.
Local Open Scope Z_scope.

(** How people write a number (the standard library's decimal notation), and
    what fits an int. *)
Definition numeral (n : Z) : str := list_ascii_of_string (NilEmpty.string_of_int (Z.to_int n)).
Definition is_int (n : Z) : Prop := - 2 ^ 31 <= n < 2 ^ 31.

(** The plugin list as an operator sees it: id, file and status, in order. *)
Definition entry := (Z * str * option status)%type.
Definition view (s : st) : list entry := map (fun p => (p_id p, p_file p, p_status p)) (listed s).

(** Exactly the entry with number [n] goes from one status to the other. *)
Definition turned (n : Z) (from to : status) (v v' : list entry) : Prop :=
  exists v1 f v2, v = v1 ++ (n, f, Some from) :: v2 /\ v' = v1 ++ (n, f, Some to) :: v2.
(** Exactly the entry with number [n] is gone. *)
Definition dropped (n : Z) (v v' : list entry) : Prop :=
  exists v1 f x v2, v = v1 ++ (n, f, x) :: v2 /\ v' = v1 ++ v2.
Definition absent (n : Z) (v : list entry) : Prop := forall f x, ~ In (n, f, x) v.

Definition usable (x : option status) : Prop := x = Some Running \/ x = Some Paused.
(** The entries for other files. *)
Definition elsewhere (path : str) (v : list entry) : list entry :=
  filter (fun e => if list_eq_dec ascii_dec (collapse (snd (fst e))) (collapse path) then false else true) v.

(** The line for a plugin in "meta list": its number, what it is doing if it is
    not running, and how it describes itself. *)
Definition t_ (s : string) : str := list_ascii_of_string s.
Definition two_digits (n : Z) : str := if n <? 10 then "0"%char :: numeral n else numeral n.
Definition word (x : option status) : str :=
  match x with
  | Some Running => []
  | Some Paused => t_ " <PAUSED>"
  | Some Refused => t_ " <FAILED>"
  | Some Error => t_ " <ERROR>"
  | _ => t_ " <NOFILE>"
  end.
Definition filled (pre text post : str) : str := match text with [] => [] | _ => pre ++ text ++ post end.
Definition described (name version author : nat -> str) (p : plugin) : str :=
  match p_api p with
  | None => []
  | Some a => t_ " " ++ (match name a with [] => p_file p | n => n end) ++
              filled (t_ " (") (version a) (t_ ")") ++ filled (t_ " by ") (author a) []
  end.
Definition line (name version author : nat -> str) (n : Z) (p : plugin) : str :=
  t_ "  [" ++ two_digits n ++ t_ "]" ++ word (p_status p) ++ described name version author p.
(** 1, 2, 3, ... before the elements of a list *)
Fixpoint numbered {A} (n : Z) (l : list A) : list (Z * A) :=
  match l with [] => [] | x :: l => (n, x) :: numbered (n + 1) l end.
