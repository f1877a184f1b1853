(** C29: THash behaves like a finite map. *)
From Coq Require Import List ZArith Bool Arith Lia Permutation.
From Verif Require Import Seq ListModel VecProofs HashModel HashSpec HashProofs HashRefine.
Import ListNotations.
Local Open Scope Z_scope.

(** Whatever the hash function, the rule for growing and the allocator: a program
    that uses tables after they are constructed and before they are destroyed, and
    does not assign a table to itself, has defined behaviour and gives the results
    finite maps give. *)
Theorem C29_map : forall (K V U : Type) hash cmp (conv : U -> K) hash_alt cmp_alt eq_alt (dflt : V) full alloc,
  key_ok conv hash cmp hash_alt cmp_alt eq_alt -> nallocator alloc ->
  forall ops, sane (fun _ => false) ops = true ->
  exists s rs sp, hrun hash cmp conv hash_alt cmp_alt eq_alt dflt full alloc hsys0 ops = Some (s, rs) /\
    mrun conv dflt no_maps ops sp rs.
Proof.
  intros K V U hash cmp conv hash_alt cmp_alt eq_alt dflt full alloc KO Al ops Sa.
  destruct (run_ok hash cmp conv hash_alt cmp_alt eq_alt dflt full alloc KO Al ops hsys0 no_maps (rel0 hash) Sa)
    as (s & rs & sp & E & M & _ & _). eauto.
Qed.
Print Assumptions C29_map.

(** A reference to the value of a key (the node [id]) stays a reference to the
    value of this key until the key is erased or the table is cleared, assigned to
    or destroyed, whatever is inserted, erased or rehashed meanwhile. *)
Theorem C29_references : forall (K V U : Type) hash cmp (conv : U -> K) hash_alt cmp_alt eq_alt (dflt : V) full alloc,
  key_ok conv hash cmp hash_alt cmp_alt eq_alt -> nallocator alloc ->
  forall ops1 ops2 s1 rs1 s2 rs2, sane (fun _ => false) (ops1 ++ ops2) = true ->
  hrun hash cmp conv hash_alt cmp_alt eq_alt dflt full alloc hsys0 ops1 = Some (s1, rs1) ->
  hrun hash cmp conv hash_alt cmp_alt eq_alt dflt full alloc s1 ops2 = Some (s2, rs2) ->
  exists sp1 sp2, mrun conv dflt no_maps ops1 sp1 rs1 /\ mrun conv dflt sp1 ops2 sp2 rs2 /\
    forall l t1 m1 id k v, h_tables s1 l = Some t1 -> sp1 l = Some m1 -> In id (ids_of t1) -> h_heap s1 id = Some (k, v) ->
      (forall o, In o ops2 -> keeps conv l k o) ->
      m1 k = Some v /\
      exists t2 m2 v2, h_tables s2 l = Some t2 /\ sp2 l = Some m2 /\ In id (ids_of t2) /\ h_heap s2 id = Some (k, v2) /\ m2 k = Some v2.
Proof.
  intros K V U hash cmp conv hash_alt cmp_alt eq_alt dflt full alloc KO Al ops1 ops2 s1 rs1 s2 rs2 Sa E1 E2.
  enough (G : forall ops1 s sp s1 rs1, hrel hash s sp -> sane (fun l => is_some (h_tables s l)) (ops1 ++ ops2) = true ->
     hrun hash cmp conv hash_alt cmp_alt eq_alt dflt full alloc s ops1 = Some (s1, rs1) ->
     exists sp1, mrun conv dflt sp ops1 sp1 rs1 /\ hrel hash s1 sp1 /\ sane (fun l => is_some (h_tables s1 l)) ops2 = true).
  { destruct (G ops1 hsys0 no_maps s1 rs1 (rel0 hash) Sa E1) as (sp1 & M1 & R1 & Sa2).
    destruct (run_ok hash cmp conv hash_alt cmp_alt eq_alt dflt full alloc KO Al ops2 s1 sp1 R1 Sa2) as (s2' & rs2' & sp2 & E2' & M2 & R2 & Kp).
    rewrite E2 in E2'. inversion E2'. subst s2' rs2'. exists sp1, sp2. split; [exact M1|]. split; [exact M2|].
    intros l t1 m1 id k v Et Em I Ei Ks. assert (N1 : node_at s1 l id k v) by (exists t1; repeat split; auto).
    split; [apply (node_val hash s1 sp1 l id k v m1); auto|]. destruct (Kp l id k v N1 Ks) as (v2 & N2). pose proof N2 as (t2 & Et2 & I2 & Ei2).
    destruct (hr_some _ _ _ R2 l t2 Et2) as (m2 & Em2 & _). exists t2, m2, v2. repeat split; auto. apply (node_val hash s2 sp2 l id k v2 m2); auto. }
  clear - KO Al. induction ops1 as [|o ops1 IH]; intros s sp s1 rs1 R Sa E; cbn [app sane hrun] in *.
  - inversion E. subst. exists sp. split; [constructor|]. auto.
  - apply andb_true_iff in Sa. destruct Sa as [A Sa].
    destruct (step_ok hash cmp conv hash_alt cmp_alt eq_alt dflt full alloc KO Al s sp o R A) as (s' & r & sp' & Es & M & R' & _ & L).
    rewrite Es in E. destruct (hrun _ _ _ _ _ _ _ _ _ s' ops1) as [[s3 rs3]|] eqn:Er; [|discriminate]. inversion E. subst.
    rewrite (sane_ext _ _ (fun l => is_some (h_tables s' l))) in Sa by (intros l; symmetry; apply L).
    destruct (IH s' sp' s1 rs3 R' Sa Er) as (sp1 & M1 & R1 & Sa1). exists sp1. split; [econstructor; eauto|]. auto.
Qed.
Print Assumptions C29_references.

(** Every node on the heap is in one table; so when all tables are destroyed none is left. *)
Theorem C29_no_leak : forall (K V U : Type) hash cmp (conv : U -> K) hash_alt cmp_alt eq_alt (dflt : V) full alloc,
  key_ok conv hash cmp hash_alt cmp_alt eq_alt -> nallocator alloc ->
  forall ops s rs, sane (fun _ => false) ops = true ->
  hrun hash cmp conv hash_alt cmp_alt eq_alt dflt full alloc hsys0 ops = Some (s, rs) ->
  (forall l, h_tables s l = None) -> forall id, h_heap s id = None.
Proof.
  intros K V U hash cmp conv hash_alt cmp_alt eq_alt dflt full alloc KO Al ops s rs Sa E N id.
  destruct (run_ok hash cmp conv hash_alt cmp_alt eq_alt dflt full alloc KO Al ops hsys0 no_maps (rel0 hash) Sa)
    as (s' & rs' & sp & E' & _ & R & _). rewrite E in E'. inversion E'. subst s' rs'.
  destruct (h_heap s id) eqn:X; [|reflexivity]. destruct (hr_leak _ _ _ R id) as (l & I); [congruence|]. rewrite N in I. destruct I.
Qed.
Print Assumptions C29_no_leak.

(** A table that has all keys in one bucket, and one that is rehashed after every insertion. *)
Definition nfirst_free {K V} (h : @nheap K V) : nat :=
  match List.find (fun a => match h a with None => true | Some _ => false end) (seq 1 (n_limit h)) with
  | Some a => a
  | None => S (n_limit h)
  end.
Example nfirst_free_allocator : forall K V, nallocator (@nfirst_free K V).
Proof.
  intros K V h B. unfold nfirst_free. destruct (List.find _ _) as [a|] eqn:E.
  - apply find_some in E. destruct E as [I E]. apply in_seq in I. split; [lia|]. destruct (h a); [discriminate|reflexivity].
  - split; [lia|]. apply B. lia.
Qed.

Example ints_ok : forall hash, key_ok (fun u : Z => u) hash (fun a b => a - b) hash (fun u k => u - k) Z.eqb.
Proof.
  intros hash. split; intros; try reflexivity.
  - lia.
  - lia.
  - apply Z.eqb_eq.
Qed.

Definition prog : list (@hop Z Z Z) :=
  [HNew 0; HPut 0 5 50; HPut 0 (-27) 60; HPut 0 37 70; HAt 0 8; HCopy 1 0; HErase 0 (-27); HFind 0 (-27); HFind 1 (-27);
   HPut 0 5 51; HEraseIf 1 (fun kv => snd kv <? 65); HWalk 1; HWalk 0; HNew 2; HAssign 2 0; HClear 0; HFindAlt 0 5; HFindAlt 2 5; HDestroy 0; HDestroy 1].

Example C29_ex_sane : sane (fun _ => false) prog = true.
Proof. reflexivity. Qed.

(** with the rule of the code; the keys 5, -27 and 37 collide in 32 buckets *)
Example C29_ex : option_map snd (hrun (fun k => k) (fun a b => a - b) (fun u : Z => u) (fun k => k) (fun u k => u - k) Z.eqb 0
    (fun used n => 3 * n <? 4 * used) nfirst_free hsys0 prog) =
  Some [HUnit; HUnit; HUnit; HUnit; HVal 0; HUnit; HUnit; HFound None; HFound (Some (-27, 60));
        HUnit; HAll [(5, 50); (-27, 60); (37, 70); (8, 0)]; HAll [(37, 70)]; HAll [(5, 51); (37, 70); (8, 0)]; HUnit; HUnit; HUnit;
        HFound None; HFound (Some (5, 51)); HUnit; HUnit].
Proof. vm_compute. reflexivity. Qed.

(** growing after every insertion *)
Example C29_ex_grow : option_map snd (hrun (fun k => k) (fun a b => a - b) (fun u : Z => u) (fun k => k) (fun u k => u - k) Z.eqb 0
    (fun _ _ => true) nfirst_free hsys0 [HNew 0; HPut 0 69 1; HPut 0 5 2; HPut 0 37 3; HWalk 0; HErase 0 37; HFind 0 69; HWalk 0]) =
  Some [HUnit; HUnit; HUnit; HUnit; HAll [(5, 2); (37, 3); (69, 1)]; HUnit; HFound (Some (69, 1)); HAll [(5, 2); (69, 1)]].
Proof. vm_compute. reflexivity. Qed.

(** Finding: assigning a table to itself empties it. *)
Theorem C29_self_assign_refuted :
  option_map snd (hrun (fun k => k) (fun a b => a - b) (fun u : Z => u) (fun k => k) (fun u k => u - k) Z.eqb 0
    (fun used n => 3 * n <? 4 * used) nfirst_free hsys0 [HNew 0; HPut 0 1 2; HAssign 0 0; HFind 0 1]) =
  Some [HUnit; HUnit; HUnit; HFound None].
Proof. vm_compute. reflexivity. Qed.
Print Assumptions C29_self_assign_refuted.

(** If Compare and == of the client disagree (here: find looks at the last digit
    only), find gives a wrong entry; [key_ok] cannot be dropped. *)
Example C29_needs_key_ok :
  option_map snd (hrun (fun k => k) (fun a b => a - b) (fun u : Z => u) (fun k => k) (fun u k => u - k) (fun k u => k mod 10 =? u mod 10) 0
    (fun used n => 3 * n <? 4 * used) nfirst_free hsys0 [HNew 0; HPut 0 11 2; HFind 0 1]) =
  Some [HUnit; HUnit; HFound (Some (11, 2))].
Proof. vm_compute. reflexivity. Qed.
