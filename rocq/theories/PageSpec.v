(** Specification of the page allocator: what its clients see. *)
From Coq Require Import List ZArith Bool Permutation.
From Verif Require Import ListModel PageModel.
Import ListNotations.
Local Open Scope Z_scope.

(** a block which was returned and not yet freed: address, requested size, isolated *)
Record block := Block { b_addr : Z; b_size : Z; b_iso : bool }.

(** The client's ledger after a call with result [res]. *)
Definition ledger (l : list block) (o : pop) (res : Z) : list block :=
  match o with
  | PAlloc n iso _ => if res =? 0 then l else Block res n iso :: l
  | PFree p => filter (fun b => negb (b_addr b =? p)) l
  | _ => l
  end.

(** ranges [a, a + n) and [b, b + k) *)
Definition apart (a n b k : Z) : Prop := a + n <= b \/ b + k <= a.
Definition within (a n b k : Z) : Prop := b <= a /\ a + n <= b + k.

Definition round_up (page n s : Z) : Prop := n <= s < n + page /\ (page | s).

(** What the operating system may answer to a request for [n] bytes: NULL, or a
    page-aligned range in user space which does not overlap with anything mapped. *)
Definition os_answer (page : Z) (m : mach) (n ans : Z) : Prop :=
  ans = 0 \/
  (0 < ans /\ (page | ans) /\
   forall s, round_up page n s -> ans + s <= 2 ^ 63 /\ forall mp, In mp (maps m) -> apart ans s (m_start mp) (m_len mp)).

(** Calls which are allowed: sizes from 1 to 2^62, any pointer for Free and Set. *)
Definition allowed (page : Z) (m : mach) (o : pop) : Prop :=
  match o with
  | PAlloc n _ ans => 0 < n <= 2 ^ 62 /\ os_answer page m n ans
  | _ => True
  end.

(** same start and size *)
Definition same_range (a b : mapping) : Prop := m_start a = m_start b /\ m_len a = m_len b.

(** The state which the property promises; [foreign]: the mappings of others. *)
Record good (align : Z) (foreign : list mapping) (m : mach) (l : list block) : Prop := Good {
  (** every block lies in one mapping, which is not a foreign one; is aligned *)
  g_in : forall b, In b l -> exists mp, In mp (maps m) /\ ~ In mp foreign /\ within (b_addr b) (b_size b) (m_start mp) (m_len mp);
  g_align : forall b, In b l -> (align | b_addr b) /\ b_addr b <> 0;
  (** the blocks are pairwise disjoint *)
  g_apart : ForallOrdPairs (fun a b => apart (b_addr a) (b_size a) (b_addr b) (b_size b)) l;
  (** every mapping is foreign or holds a block *)
  g_used : forall mp, In mp (maps m) ->
    In mp foreign \/ exists b, In b l /\ within (b_addr b) (b_size b) (m_start mp) (m_len mp);
  (** foreign mappings stay *)
  g_foreign : forall mp, In mp foreign -> In mp (maps m);
  (** the mappings are disjoint *)
  g_maps : ForallOrdPairs (fun a b => apart (m_start a) (m_len a) (m_start b) (m_len b)) (maps m);
  (** no other block in the mapping of an isolated block *)
  g_iso : forall a b mp, In a l -> In b l -> b_iso a = true -> In mp (maps m) ->
    within (b_addr a) (b_size a) (m_start mp) (m_len mp) -> within (b_addr b) (b_size b) (m_start mp) (m_len mp) -> b = a
}.

(** Runs of a client *)
Inductive prun (page : Z) : mach -> palloc -> list block -> list pop -> mach -> palloc -> list block -> Prop :=
| pr_nil (m : mach) (pa : palloc) (l : list block) : prun page m pa l [] m pa l
| pr_cons (m m' m'' : mach) (pa pa' pa'' : palloc) (l l'' : list block) (o : pop) (os : list pop) (r : Z) :
    allowed page m o -> pstep m pa o = Some (m', pa', r) -> prun page m' pa' (ledger l o r) os m'' pa'' l'' ->
    prun page m pa l (o :: os) m'' pa'' l''.
