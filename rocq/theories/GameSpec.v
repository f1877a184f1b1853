(** What gameinfo says about game libraries. *)
From Coq Require Import List Arith Ascii Bool String.
From Verif Require Import StrModel StrSpec PlFileModel PlFileSpec GameModel.
Import ListNotations.
Local Open Scope char_scope.
Local Open Scope list_scope.
Local Open Scope nat_scope.
Local Notation length := List.length.
Local Notation L_ := list_ascii_of_string.

(** equal up to the case of the letters A-Z *)
Inductive same_letter : ascii -> ascii -> Prop :=
| sl_eq c : same_letter c c
| sl_up n : 65 <= n <= 90 -> same_letter (ascii_of_nat n) (ascii_of_nat (n + 32))
| sl_down n : 65 <= n <= 90 -> same_letter (ascii_of_nat (n + 32)) (ascii_of_nat n).
Definition same_word (a b : str) : Prop := Forall2 same_letter a b.

(** the text of a line *)
Definition text_of_line (l t : str) : Prop :=
  exists s u, upto_nul l s /\ uncommented s u /\ trimmed u t.

(** the place the value [v] names: base and the rest *)
Inductive place (dir cwd : str) (v : str) : str -> str -> Prop :=
| pl_dot r : v = L_ "|gameinfo_path|." ++ r -> place dir cwd v dir r
| pl_here r : v = L_ "|gameinfo_path|" ++ r -> (forall r', r <> "." :: r') -> place dir cwd v dir r
| pl_cwd : (forall r, v <> L_ "|gameinfo_path|" ++ r) -> place dir cwd v cwd v.

(** the library of a "GameBin" or "Game" entry *)
Inductive library (src2 : bool) (base rest : str) : bool -> str -> Prop :=
| li_bin1 : src2 = false -> library src2 base rest true (base ++ L_ "/" ++ rest ++ L_ "/linux64/server.so")
| li_bin2 : src2 = true -> library src2 base rest true (base ++ L_ "/../../" ++ rest ++ L_ "/linuxsteamrt64//libserver.so")
| li_here1 : src2 = false -> rest = [] -> library src2 base rest false (base ++ L_ "/bin/linux64/server.so")
| li_here2 : src2 = true -> rest = [] -> library src2 base rest false (base ++ L_ "/../../bin/linuxsteamrt64//libserver.so")
| li_game1 : src2 = false -> rest <> [] -> library src2 base rest false (base ++ L_ "/" ++ rest ++ L_ "/bin/linux64/server.so")
| li_game2 : src2 = true -> rest <> [] ->
    library src2 base rest false (base ++ L_ "/../../" ++ rest ++ L_ "/bin/linuxsteamrt64//libserver.so").

(** the entry of a line with text [t]; keys and values are cut to 127 characters, paths
    to [max] - 1 *)
Inductive game_entry (max : nat) (src2 : bool) (dir cwd : str) (t : str) : option str -> Prop :=
| ge_other k v : key_value t k v -> ~ same_word k (L_ "Game") -> ~ same_word k (L_ "GameBin") ->
    game_entry max src2 dir cwd t None
| ge_game k v base rest path : key_value t k v -> same_word k (L_ "Game") ->
    place dir cwd (firstn 127 v) base rest -> library src2 base rest false path ->
    game_entry max src2 dir cwd t (Some (slashed (firstn (max - 1) path)))
| ge_bin k v base rest path : key_value t k v -> same_word k (L_ "GameBin") ->
    place dir cwd (firstn 127 v) base rest -> library src2 base rest true path ->
    game_entry max src2 dir cwd t (Some (slashed (firstn (max - 1) path))).

Definition is_section (l : str) : Prop := exists t, text_of_line l t /\ same_word t (L_ "SearchPaths").

Definition somes {A} (l : list (option A)) : list A :=
  flat_map (fun x => match x with Some a => [a] | None => [] end) l.

(** the candidates of a file: the entries behind the first line "SearchPaths" *)
Inductive candidates (max : nat) (src2 : bool) (dir cwd : str) (lines : list str) : list str -> Prop :=
| ca_none : Forall (fun l => ~ is_section l) lines -> candidates max src2 dir cwd lines []
| ca_some pre l post rs : lines = pre ++ l :: post -> Forall (fun l => ~ is_section l) pre -> is_section l ->
    Forall2 (fun l r => exists t, text_of_line l t /\ game_entry max src2 dir cwd t r) post rs ->
    candidates max src2 dir cwd lines (somes rs).

(** Of the candidates [cs] the ones at the positions [is] are taken: in their order; each
    is allowed and none of the allowed ones in front of it is the same; at most [n]; and
    one is left out only if it is not allowed, the same as one taken before, or there are
    [n] in front of it. *)
Record chosen (ok : str -> Prop) (same : str -> str -> Prop) (n : nat) (cs : list str) (ixs : list nat) : Prop := {
  ch_order : forall a i b j c, ixs = a ++ i :: b ++ j :: c -> i < j;
  ch_in : forall i, In i ixs -> exists c, nth_error cs i = Some c /\ ok c;
  ch_first : forall i j c d, In i ixs -> j < i -> nth_error cs i = Some c -> nth_error cs j = Some d -> ok d -> ~ same d c;
  ch_max : length ixs <= n;
  ch_left : forall i c, nth_error cs i = Some c -> ~ In i ixs ->
    ~ ok c \/ (exists j d, j < i /\ In j ixs /\ nth_error cs j = Some d /\ same d c) \/
    (length ixs = n /\ forall j, In j ixs -> j < i)
}.

(** the same path: equal after realpath, up to repeated slashes *)
Definition same_path (e : env) (p q : str) : Prop :=
  let canon p := match e_real e p with Some r => r | None => p end in
  collapse (canon p) = collapse (canon q).

Definition allowed (e : env) (self p : str) : Prop := e_file e p <> None /\ ~ same_path e self p.
