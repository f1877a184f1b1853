(** What /proc/self/maps says and what is wanted of the functions for memory protection. *)
From Coq Require Import List ZArith Bool Ascii String.
From Verif Require Import StrModel MemModel.
Import ListNotations.
Local Open Scope list_scope.
Local Open Scope Z_scope.

(** a number as the kernel writes it *)
Definition hexs : str := list_ascii_of_string "0123456789abcdef".
Inductive hex_numeral : str -> Z -> Prop :=
| hn_one d c : nth_error hexs d = Some c -> hex_numeral [c] (Z.of_nat d)
| hn_more s n d c : hex_numeral s n -> nth_error hexs d = Some c -> hex_numeral (s ++ [c]) (16 * n + Z.of_nat d).

(** a mapping: the bytes from m_lo up to, not including, m_hi *)
Record mapping := Mapping { m_lo : Z; m_hi : Z; m_r : bool; m_w : bool; m_x : bool }.
Definition letter (b : bool) (c : ascii) : ascii := if b then c else "-"%char.
(** 7f0000000000-7f0000001000 r-xp 00000000 03:03 1010107    /bin/cat *)
Inductive line_of (m : mapping) : str -> Prop :=
| line_of_ lo hi rest : hex_numeral lo (m_lo m) -> hex_numeral hi (m_hi m) -> ~ In "010"%char rest ->
    line_of m (lo ++ ["-"%char] ++ hi ++ [" "; letter (m_r m) "r"; letter (m_w m) "w"; letter (m_x m) "x"]%char ++ rest ++ ["010"%char]).
Definition text_of (ms : list mapping) (t : str) : Prop := exists ls, Forall2 line_of ms ls /\ t = List.concat ls.

Definition contains (m : mapping) (a : Z) : Prop := m_lo m <= a < m_hi m.
Definition placed (wb : Z) (ms : list mapping) : Prop :=
  (forall m, In m ms -> 0 <= m_lo m /\ m_lo m < m_hi m < 2 ^ wb /\ m_lo m mod 4096 = 0 /\ m_hi m mod 4096 = 0) /\
  ForallOrdPairs (fun m m' => m_hi m <= m_lo m') ms.
Definition rights_of (m : mapping) : Z := (if m_r m then 1 else 0) + (if m_w m then 2 else 0) + (if m_x m then 4 else 0).
(** the text is about this memory; it may be that it cannot be read *)
Definition describes (wb : Z) (maps : option str) (mm : mem) : Prop :=
  match maps with
  | None => True
  | Some t => exists ms, text_of ms t /\ placed wb ms /\
      (forall p, match rights mm p with
                 | Some b => exists m, In m ms /\ contains m (p * 4096) /\ b = rights_of m
                 | None => forall m, In m ms -> ~ contains m (p * 4096)
                 end)
  end.

Definition mapped (mm : mem) (a : Z) : Prop := rights mm (a / 4096) <> None.
Definition may (mm : mem) (a : Z) (bit : Z) : Prop := exists b, rights mm (a / 4096) = Some b /\ Z.testbit b bit = true.
Definition writable (mm : mem) (a : Z) : Prop := may mm a 1.
(** no page has lost a right *)
Definition kept (mm mm' : mem) : Prop := forall a bit, may mm a bit -> may mm' a bit.
