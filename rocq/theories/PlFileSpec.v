(** What the lines of the plugin list file mean, and what the path of a plugin is. *)
From Coq Require Import List Arith Ascii Bool.
From Verif Require Import StrModel StrSpec PlFileModel.
Import ListNotations.
Local Open Scope char_scope.
Local Open Scope nat_scope.

Definition letter (c : ascii) : Prop :=
  In c (map ascii_of_nat (seq 65 26 ++ seq 97 26)).

Definition trimmed (s t : str) : Prop := exists u, trimmed_left s u /\ trimmed_right u t.
Definition no_white (s : str) : Prop := forall c, In c s -> ~ white c.
Definition comment (t : str) : Prop := exists r, t = ";" :: r \/ t = "/" :: "/" :: r.
Definition quoted (t : str) : Prop := exists r, t = "034" :: r.

(** The meaning of the text [t] of a line without surrounding white space: no
    plugin, or a path, perhaps with an alias. *)
Inductive line_means (t : str) : option (option str * str) -> Prop :=
| lm_blank : t = [] -> line_means t None
| lm_comment : comment t -> line_means t None
| lm_quoted f r : t = "034" :: f ++ "034" :: r -> ~ In "034" f -> f <> [] -> line_means t (Some (None, f))
| lm_open f : t = "034" :: f -> ~ In "034" f -> f <> [] -> line_means t (Some (None, f))
| lm_empty_quotes r : t = ["034"] \/ t = "034" :: "034" :: r -> line_means t None
| lm_path : t <> [] -> ~ comment t -> ~ quoted t -> no_white t -> line_means t (Some (None, t))
| lm_alias w sp c v : t = w ++ sp ++ c :: v -> ~ comment t -> ~ quoted t ->
    w <> [] -> no_white w -> sp <> [] -> Forall white sp -> letter c ->
    line_means t (Some (Some w, c :: v))
| lm_word w sp c v : t = w ++ sp ++ c :: v -> ~ comment t -> ~ quoted t ->
    w <> [] -> no_white w -> sp <> [] -> Forall white sp -> ~ white c -> ~ letter c ->
    line_means t (Some (None, w)).

(** What is done for it *)
Definition entry_events (r : option (option str * str)) : list pev :=
  match r with
  | None => []
  | Some (None, f) => [ELoad f]
  | Some (Some a, f) => [EAlias a f; ELoad f]
  end.

(** The text of a line ends at its first NUL byte. *)
Definition upto_nul (s t : str) : Prop :=
  ~ In NUL t /\ (t = s \/ exists r, s = t ++ NUL :: r).

Definition line_entry (l : str) (r : option (option str * str)) : Prop :=
  exists s t, upto_nul l s /\ trimmed s t /\ line_means t r.

(** The bytes of a file with the given lines; [last] has no newline behind it. *)
Definition file_of (ls : list str) (last : str) : str :=
  concat (map (fun l => l ++ ["010"]) ls) ++ last.
Definition all_lines (ls : list str) (last : str) : list str :=
  ls ++ match last with [] => [] | _ => [last] end.

Definition plugins_of (ev : list pev) : list str :=
  flat_map (fun e => match e with ELoad f => [f] | EAlias _ _ => [] end) ev.

(** Plugin paths *)
Definition absolute (p : str) : Prop :=
  (exists r, p = "/" :: r) \/ (exists c r, p = c :: ":" :: "\" :: r).
Definition slashed (s : str) : str := map (fun c => if Ascii.eqb c "\" then "/" else c) s.
