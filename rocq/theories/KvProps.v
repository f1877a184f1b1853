(** C86: the reading of VDF files. *)
From Coq Require Import List ZArith Bool Lia.
From Verif Require Import KvModel KvSpec.
Import ListNotations.
Local Open Scope Z_scope.
Notation length := List.length.

Lemma find_new (w : world) l (t : table) : find (fun p : nat * table => Nat.eqb (fst p) (next w)) ((next w, t) :: l) = Some (next w, t).
Proof. cbn [find fst]. rewrite Nat.eqb_refl. reflexivity. Qed.
Lemma others (w : world) t : Forall (fun p => (fst p < next w)%nat) (objs w) ->
  map (fun p : nat * table => if Nat.eqb (fst p) (next w) then (next w, t) else p) (objs w) = objs w /\
  filter (fun p : nat * table => negb (Nat.eqb (fst p) (next w))) (objs w) = objs w.
Proof.
  intros H. induction H as [|p l Hp Hl [IH1 IH2]]; [split; reflexivity|]. cbn [map filter].
  replace (Nat.eqb (fst p) (next w)) with false by (symmetry; apply Nat.eqb_neq; lia). cbn [negb]. rewrite IH1, IH2. split; reflexivity.
Qed.
Lemma write_length b : forall i c, length (write b i c) = length b.
Proof. induction b as [|x b IH]; intros [|i] c; cbn [write length]; try reflexivity. f_equal. apply IH. Qed.
Lemma write_app a : forall x b c, write (a ++ x :: b) (length a) c = a ++ c :: b.
Proof. induction a as [|y a IH]; intros x b c; cbn [app write length]; [reflexivity|]. f_equal. apply IH. Qed.
Lemma cstr_upto c : forall r, exists s, cstr (c ++ 0 :: r) = Some s /\ upto_nul c s.
Proof.
  induction c as [|x c IH]; intros r.
  - exists []. split; [reflexivity|]. split; [intros []|left; reflexivity].
  - cbn [app cstr]. destruct (Z.eqb_spec x 0) as [-> |Hx].
    + exists []. split; [reflexivity|]. split; [intros []|right; exists c; reflexivity].
    + destruct (IH r) as (s & -> & N & U). exists (x :: s). split; [reflexivity|]. split; [intros [Y|Y]; [lia|exact (N Y)]|].
      destruct U as [-> |(q & ->)]; [left; reflexivity|right; exists q; reflexivity].
Qed.
Lemma upto_fun c s s' : upto_nul c s -> upto_nul c s' -> s = s'.
Proof.
  revert s s'. induction c as [|x c IH]; intros s s' (N & U) (N' & U').
  - destruct U as [<- |(q & E)]; [|destruct s; discriminate E]. destruct U' as [<- |(q & E)]; [reflexivity|destruct s'; discriminate E].
  - destruct s as [|y s], s' as [|y' s']; try reflexivity.
    + destruct U as [E|(q & E)]; [discriminate E|]. injection E as -> ->. destruct U' as [E|(q' & E)]; injection E; intros; subst; exfalso; apply N'; left; reflexivity.
    + destruct U' as [E|(q & E)]; [discriminate E|]. injection E as -> ->. destruct U as [E|(q' & E)]; injection E; intros; subst; exfalso; apply N; left; reflexivity.
    + assert (X : x = y /\ upto_nul c s). { split; [destruct U as [E|(q & E)]; injection E; auto|]. split; [intros Y; apply N; right; exact Y|]. destruct U as [E|(q & E)]; injection E; [left; assumption|right; exists q; assumption]. }
      assert (X' : x = y' /\ upto_nul c s'). { split; [destruct U' as [E|(q & E)]; injection E; auto|]. split; [intros Y; apply N'; right; exact Y|]. destruct U' as [E|(q & E)]; injection E; [left; assumption|right; exists q; assumption]. }
      destruct X as [<- X], X' as [<- X']. f_equal. exact (IH _ _ X X').
Qed.

(** [text_of f]: what the parser gets; the bytes behind those that Read gave are those of the scratch memory *)
Definition text_of (junk : Z -> list Z) (f : file) : list Z :=
  let g := f_read f (f_size f) in firstn (Z.to_nat (f_size f)) (g ++ skipn (length g) (junk (f_size f + 1))).
Lemma load_run junk parse M w i t f : memory_ok junk -> file_ok f -> f_open f <> None -> 0 <= f_size f < M -> scratch w = None -> kv_get w i = Some t ->
  exists s, upto_nul (text_of junk f) s /\
  KVLoadFromFile junk parse M w i f =
    match parse s with Some t => match kv_set w i t with Some w' => Some (w', true) | None => None end | None => Some (w, false) end.
Proof.
  intros Hj Hf Ho Hs Sc G. unfold KVLoadFromFile. destruct (f_open f) as [h|]; [|contradiction]. cbn [handles set_handles scratch].
  replace (M <=? f_size f) with false by (symmetry; apply Z.leb_gt; lia). replace (f_size f + 1 <? 0) with false by (symmetry; apply Z.ltb_ge; lia).
  rewrite Sc. cbn [remove_one]. rewrite Z.eqb_refl. pose proof (Hj (f_size f + 1) ltac:(lia)) as L1. pose proof (Hf (f_size f) ltac:(lia)) as L2.
  unfold text_of. cbv zeta. set (g := f_read f (f_size f)) in *. set (b := junk (f_size f + 1)) in *.
  replace (length b <? length g)%nat with false by (symmetry; apply Nat.ltb_ge; lia).
  assert (L3 : length (g ++ skipn (length g) b) = length b) by (rewrite app_length, skipn_length; lia).
  set (b' := g ++ skipn (length g) b) in *.
  replace (f_size f <? 0) with false by (symmetry; apply Z.ltb_ge; lia). replace (Z.of_nat (length b') <=? f_size f) with false by (symmetry; apply Z.leb_gt; lia). cbn [orb].
  set (n := Z.to_nat (f_size f)) in *. assert (Ln : length b' = S n) by lia.
  destruct (skipn n b') as [|x q] eqn:Eq; [apply (f_equal (@length Z)) in Eq; rewrite skipn_length in Eq; cbn in Eq; lia|].
  assert (Eb : b' = firstn n b' ++ x :: q) by (rewrite <- Eq; symmetry; apply firstn_skipn).
  assert (Lf : length (firstn n b') = n) by (rewrite firstn_length; lia).
  assert (Ew : write b' n 0 = firstn n b' ++ 0 :: q). { rewrite Eb at 1. rewrite <- Lf at 2. apply write_app. }
  rewrite Ew. destruct (cstr_upto (firstn n b') q) as (s & Es & Us). exists s. split; [exact Us|]. rewrite Es.
  unfold kv_set, kv_get, set_handles, set_scratch, set_objs. cbn [handles scratch objs next gone remove_one]. rewrite Z.eqb_refl.
  destruct w as [wh ws wo wn wg]. cbn [scratch] in Sc. subst ws. unfold kv_get in G. cbn [handles scratch objs next gone] in *.
  destruct (parse s) as [t'|]; rewrite G; reflexivity.
Qed.

(** Nothing is used that is not there, and everything is given back: for every file (that can be opened or not, of any size an
    int below INT_MAX can hold), every parser, every contents of the scratch memory, for both providers. *)
Theorem C86_gives_back : forall junk parse load M s2 orig baseFs w f,
  memory_ok junk -> file_ok f -> 0 <= f_size f < M -> sane w ->
  exists w' r, ProcessVDF junk parse M load s2 orig baseFs w f = Some (w', r) /\ given_back w w'.
Proof.
  intros junk parse load M s2 orig baseFs w f Hj Hf Hs (Sc & Ob). unfold ProcessVDF. destruct baseFs; cbn [negb].
  2:{ exists w, None. split; [reflexivity|]. repeat split; try lia. exists []. split; [reflexivity|]. split; [constructor|]. intros i. split; [intros []|lia]. }
  cbn [kv_new]. set (w1 := World (handles w) (scratch w) ((next w, (None, None)) :: objs w) (S (next w)) (gone w)).
  assert (Back : forall t, given_back w (World (handles w) (scratch w) (filter (fun p : nat * table => negb (Nat.eqb (fst p) (next w))) ((next w, t) :: objs w)) (S (next w)) (next w :: gone w))).
  { intros t. cbn [filter fst]. rewrite Nat.eqb_refl. cbn [negb]. rewrite (proj2 (others w t Ob)). repeat split; cbn [next]; try lia.
    exists [next w]. split; [reflexivity|]. split; [constructor; [intros []|constructor]|]. intros i. split; [intros [<- |[]]; lia|]. intros Hi. left. lia. }
  assert (Get : kv_get w1 (next w) = Some (None, None)) by (unfold kv_get; cbn [w1 objs]; rewrite find_new; reflexivity).
  assert (St : forall t, kv_set w1 (next w) t = Some (World (handles w) (scratch w) ((next w, t) :: objs w) (S (next w)) (gone w))).
  { intros t. unfold kv_set. rewrite Get. cbn [w1 objs map fst]. rewrite Nat.eqb_refl, (proj1 (others w t Ob)). reflexivity. }
  assert (Fin : forall t (k : world -> option (world * option (text * text))), (forall w', exists r, k w' = Some (w', r)) ->
    exists w' r, match kv_delete (World (handles w) (scratch w) ((next w, t) :: objs w) (S (next w)) (gone w)) (next w) with Some w => k w | None => None end = Some (w', r) /\ given_back w w').
  { intros t k Hk. unfold kv_delete, kv_get. cbn [objs handles scratch next gone]. rewrite find_new. destruct (Hk (World (handles w) (scratch w) (filter (fun p : nat * table => negb (Nat.eqb (fst p) (next w))) ((next w, t) :: objs w)) (S (next w)) (next w :: gone w))) as (r & ->).
    eexists _, r. split; [reflexivity|apply Back]. }
  assert (X : exists t ok, (if negb s2 && orig then KVLoadFromFile junk parse M w1 (next w) f else LoadFromFile load w1 (next w)) =
    Some (World (handles w) (scratch w) ((next w, t) :: objs w) (S (next w)) (gone w), ok)).
  { destruct (negb s2 && orig).
    - destruct (f_open f) as [h|] eqn:Eo; [|exists (None, None), false; unfold KVLoadFromFile; rewrite Eo; reflexivity].
      destruct (load_run junk parse M w1 (next w) (None, None) f Hj Hf ltac:(rewrite Eo; discriminate) Hs Sc Get) as (s & _ & ->).
      destruct (parse s) as [t|]; [rewrite St; exists t, true; reflexivity|exists (None, None), false; reflexivity].
    - unfold LoadFromFile. rewrite Get. destruct load as [t|]; [rewrite St; exists t, true; reflexivity|exists (None, None), false; reflexivity]. }
  destruct X as (t & ok & ->). destruct ok; cbn [negb]; [|apply Fin; intros w'; exists None; reflexivity].
  unfold kv_get at 1 2. cbn [objs]. rewrite find_new. cbn [snd]. destruct t as [[p|] a]; cbn [fst snd]; apply Fin; intros w'; eexists; reflexivity.
Qed.
Print Assumptions C86_gives_back.

(** Where the file system gives the whole file: the provider for the original engine tells what the parser of the engine makes of
    the bytes of the file, up to the first NUL; without a file nothing is told. *)
Theorem C86_reads_file : forall junk parse load M w f c s,
  memory_ok junk -> file_ok f -> has_bytes f c -> Z.of_nat (length c) < M -> upto_nul c s -> sane w ->
  exists w', ProcessVDF junk parse M load false true true w f = Some (w', tells (parse s)).
Proof.
  intros junk parse load M w f c s Hj Hf ((h & Ho) & Hz & Hr) Hm Hu (Sc & Ob). unfold ProcessVDF. cbn [negb andb kv_new].
  set (w1 := World (handles w) (scratch w) ((next w, (None, None)) :: objs w) (S (next w)) (gone w)).
  assert (Get : kv_get w1 (next w) = Some (None, None)) by (unfold kv_get; cbn [w1 objs]; rewrite find_new; reflexivity).
  destruct (load_run junk parse M w1 (next w) (None, None) f Hj Hf ltac:(rewrite Ho; discriminate) ltac:(lia) Sc Get) as (s' & Us & ->).
  assert (Et : text_of junk f = c).
  { unfold text_of. cbv zeta. rewrite Hz, Hr, Nat2Z.id, firstn_app, firstn_all, Nat.sub_diag. cbn [firstn]. apply app_nil_r. }
  rewrite Et in Us. rewrite (upto_fun _ _ _ Us Hu).
  assert (St : forall t, kv_set w1 (next w) t = Some (World (handles w) (scratch w) ((next w, t) :: objs w) (S (next w)) (gone w))).
  { intros t. unfold kv_set. rewrite Get. cbn [w1 objs map fst]. rewrite Nat.eqb_refl, (proj1 (others w t Ob)). reflexivity. }
  assert (Del : forall t, exists w', kv_delete (World (handles w) (scratch w) ((next w, t) :: objs w) (S (next w)) (gone w)) (next w) = Some w').
  { intros t. unfold kv_delete, kv_get. cbn [objs]. rewrite find_new. eexists. reflexivity. }
  destruct (parse s) as [t|].
  - rewrite St. cbn [negb]. unfold kv_get at 1 2. cbn [objs]. rewrite find_new. cbn [snd].
    destruct (Del t) as (w' & ->). exists w'. destruct t as [[p|] [a|]]; reflexivity.
  - cbn [negb]. assert (D1 : exists w', kv_delete w1 (next w) = Some w') by exact (Del (None, None)). destruct D1 as (w' & Dw). exists w'. rewrite Dw. reflexivity.
Qed.
Print Assumptions C86_reads_file.
Theorem C86_no_file : forall junk parse load M w f, f_open f = None -> sane w ->
  exists w', ProcessVDF junk parse M load false true true w f = Some (w', None).
Proof.
  intros junk parse load M w f Ho _. unfold ProcessVDF. cbn [negb andb kv_new]. unfold KVLoadFromFile. rewrite Ho. cbn [negb].
  unfold kv_delete, kv_get. cbn [objs]. rewrite find_new. eexists. reflexivity.
Qed.
Print Assumptions C86_no_file.
(** Both providers otherwise tell what the engine's LoadFromFile makes of the file. *)
Theorem C86_engine_loads : forall junk parse load M s2 orig w f, negb s2 && orig = false -> sane w ->
  exists w', ProcessVDF junk parse M load s2 orig true w f = Some (w', tells load).
Proof.
  intros junk parse load M s2 orig w f Hk (Sc & Ob). unfold ProcessVDF. cbn [negb kv_new]. rewrite Hk. unfold LoadFromFile.
  set (w1 := World (handles w) (scratch w) ((next w, (None, None)) :: objs w) (S (next w)) (gone w)).
  assert (Get : kv_get w1 (next w) = Some (None, None)) by (unfold kv_get; cbn [w1 objs]; rewrite find_new; reflexivity).
  rewrite Get.
  assert (St : forall t, kv_set w1 (next w) t = Some (World (handles w) (scratch w) ((next w, t) :: objs w) (S (next w)) (gone w))).
  { intros t. unfold kv_set. rewrite Get. cbn [w1 objs map fst]. rewrite Nat.eqb_refl, (proj1 (others w t Ob)). reflexivity. }
  assert (Del : forall t, exists w', kv_delete (World (handles w) (scratch w) ((next w, t) :: objs w) (S (next w)) (gone w)) (next w) = Some w').
  { intros t. unfold kv_delete, kv_get. cbn [objs]. rewrite find_new. eexists. reflexivity. }
  destruct load as [t|].
  - rewrite St. cbn [negb]. unfold kv_get at 1 2. cbn [objs]. rewrite find_new. cbn [snd].
    destruct (Del t) as (w' & ->). exists w'. destruct t as [[p|] [a|]]; reflexivity.
  - cbn [negb]. assert (D1 : exists w', kv_delete w1 (next w) = Some w') by exact (Del (None, None)). destruct D1 as (w' & Dw). exists w'. rewrite Dw. reflexivity.
Qed.
Print Assumptions C86_engine_loads.

(** ** A concrete case: the file "ab" NUL "c"; the parser takes the text as the plugin's file *)
Definition ex_parse (s : list Z) : option table := match s with [] => None | _ => Some (Some s, None) end.
Definition ex_junk (n : Z) : list Z := repeat 88 (Z.to_nat n).
Definition ex_file : file := File (Some 5) 4 (fun n => firstn (Z.to_nat n) [97; 98; 0; 99]).
Definition ex_w : world := World [3] None [(0%nat, (Some [1], None))] 2 [1%nat].
Lemma ex_memory : memory_ok ex_junk.
Proof. intros n Hn. unfold ex_junk. rewrite repeat_length. lia. Qed.
Lemma first_ok h z l : file_ok (File h z (fun n => firstn (Z.to_nat n) l)).
Proof. intros n Hn. cbn [f_read]. rewrite firstn_length. lia. Qed.
Lemma ex_sane : sane ex_w.
Proof. split; [reflexivity|]. repeat constructor. Qed.
Example C86_example : memory_ok ex_junk /\ file_ok ex_file /\ has_bytes ex_file [97; 98; 0; 99] /\ upto_nul [97; 98; 0; 99] [97; 98] /\ sane ex_w /\
  ProcessVDF ex_junk ex_parse (2 ^ 31 - 1) None false true true ex_w ex_file = Some (World [3] None [(0%nat, (Some [1], None))] 3 [2%nat; 1%nat], Some ([97; 98], [])).
Proof.
  split; [exact ex_memory|]. split; [apply first_ok|]. split; [split; [exists 5; reflexivity|split; reflexivity]|].
  split; [split; [intros [Y|[Y|[]]]; discriminate Y|right; exists [99]; reflexivity]|]. split; [exact ex_sane|vm_compute; reflexivity].
Qed.

(** ** A Read that gives fewer bytes *)
(** The answer of Read is not used: if it gives less than Size said (a read error, a file that has become shorter), the parser gets what
    was in the scratch memory before, and that can be a plugin to load. *)
Definition short_file : file := File (Some 5) 4 (fun n => firstn (Z.to_nat n) [97]).
Theorem C86_short_read_refuted : exists junk parse load M w f w' p a,
  memory_ok junk /\ file_ok f /\ 0 <= f_size f < M /\ sane w /\
  ProcessVDF junk parse M load false true true w f = Some (w', Some (p, a)) /\
  (exists x, In x p /\ ~ In x (f_read f (f_size f))).
Proof.
  exists ex_junk, ex_parse, None, (2 ^ 31 - 1), ex_w, short_file. eexists _, _, _.
  split; [exact ex_memory|]. split; [apply first_ok|]. split; [cbn; lia|]. split; [exact ex_sane|]. split; [vm_compute; reflexivity|].
  exists 88. split; [right; left; reflexivity|]. intros [Y|[]]. discriminate Y.
Qed.
Print Assumptions C86_short_read_refuted.
(** ** A file without a size *)
(** If Size answers -1, no memory is asked for and the byte before it is overwritten. *)
Theorem C86_size_refuted : exists junk parse load M w f,
  memory_ok junk /\ file_ok f /\ f_size f = -1 /\ sane w /\ ProcessVDF junk parse M load false true true w f = None.
Proof.
  exists ex_junk, ex_parse, None, (2 ^ 31 - 1), ex_w, (File (Some 5) (-1) (fun n => [])).
  split; [exact ex_memory|]. split; [intros n Hn; cbn; lia|]. split; [reflexivity|]. split; [exact ex_sane|vm_compute; reflexivity].
Qed.
Print Assumptions C86_size_refuted.
