(** Proofs about the console list: the chain of m_pNext, and the refinement of the
    model by the view of CmdSpec. *)
From Coq Require Import List ZArith Bool Lia.
From Verif Require Import CmdModel CmdSpec.
Import ListNotations.
Local Open Scope Z_scope.

Fixpoint chain (nx : Z -> Z) (a : Z) (l : list Z) : Prop :=
  match l with
  | [] => a = 0
  | x :: r => a = x /\ x <> 0 /\ chain nx (nx x) r
  end.

Definition without (c : Z) (l : list Z) : list Z := filter (fun x => negb (x =? c)) l.

Lemma upd_same f a v : upd f a v a = v.
Proof. unfold upd. now rewrite Z.eqb_refl. Qed.
Lemma upd_other f a v x : x <> a -> upd f a v x = f x.
Proof. intros N. unfold upd. destruct (x =? a) eqn:E; [apply Z.eqb_eq in E; contradiction|reflexivity]. Qed.

Lemma chain_follow nx l : forall a n, chain nx a l -> (length l <= n)%nat -> follow n nx a = Some l.
Proof.
  induction l as [|x r IH]; cbn [chain length]; intros a n C L.
  - subst a. destruct n; reflexivity.
  - destruct C as (-> & N & C). destruct n as [|n]; [lia|]. cbn [follow].
    apply Z.eqb_neq in N as N'. rewrite N', (IH _ n C) by lia. reflexivity.
Qed.

Lemma chain_ext nx nx' l : forall a, (forall x, In x l -> nx' x = nx x) -> chain nx a l -> chain nx' a l.
Proof.
  induction l as [|x r IH]; cbn [chain]; intros a A C; [exact C|].
  destruct C as (-> & N & C). split; [reflexivity|]. split; [exact N|].
  rewrite (A x (or_introl eq_refl)). apply IH; [|exact C]. intros y Y. apply A. now right.
Qed.

Lemma chain_upd_out nx l c v a : ~ In c l -> chain nx a l -> chain (upd nx c v) a l.
Proof. intros N. apply chain_ext. intros x X. apply upd_other. intros ->. contradiction. Qed.

Lemma chain_nonzero nx l : forall a, chain nx a l -> ~ In 0 l.
Proof.
  induction l as [|x r IH]; cbn [chain In]; intros a C; [tauto|].
  destruct C as (-> & N & C). intros [Z0|I]; [contradiction|]. exact (IH _ C I).
Qed.

Lemma without_out c l : ~ In c l -> without c l = l.
Proof.
  unfold without. induction l as [|x r IH]; cbn [In filter]; intros N; [reflexivity|].
  destruct (x =? c) eqn:E; cbn [negb]; [apply Z.eqb_eq in E; exfalso; apply N; now left|].
  f_equal. apply IH. intros I. apply N. now right.
Qed.

Lemma unlink_out nx c l : forall n prev cur, chain nx cur l -> ~ In c l -> (length l <= n)%nat ->
  unlink n nx c prev cur = Some nx.
Proof.
  induction l as [|x r IH]; cbn [chain length In]; intros n prev cur C N L.
  - subst cur. destruct n; reflexivity.
  - destruct C as (-> & X & C). destruct n as [|n]; [lia|]. cbn [unlink].
    apply Z.eqb_neq in X as X'. rewrite X'.
    assert (K : x =? c = false) by (apply Z.eqb_neq; intros ->; apply N; now left).
    rewrite K. apply IH; [exact C|intros I; apply N; now right|lia].
Qed.

(** The loop takes [c] out of the rest of the list. *)
Lemma unlink_spec c l : forall nx n prev, chain nx (nx prev) l -> NoDup (prev :: l) -> prev <> c ->
  (length l <= n)%nat ->
  exists nx', unlink n nx c prev (nx prev) = Some nx' /\ chain nx' (nx' prev) (without c l) /\
    forall x, ~ In x (prev :: l) -> nx' x = nx x.
Proof.
  induction l as [|x r IH]; cbn [chain length]; intros nx n prev C ND NC L.
  - exists nx. rewrite C. destruct n; (split; [reflexivity|split; [reflexivity|reflexivity]]).
  - destruct C as (E & X & C). destruct n as [|n]; [lia|].
    apply NoDup_cons_iff in ND as (NP & ND). rewrite E. cbn [unlink]. apply Z.eqb_neq in X as X'. rewrite X'.
    destruct (x =? c) eqn:XC.
    + apply Z.eqb_eq in XC. rewrite XC in *. clear XC x. apply NoDup_cons_iff in ND as (NR & ND).
      exists (upd (upd nx prev (nx c)) c 0). split; [|split].
      * cbv zeta. rewrite upd_same. destruct n; reflexivity.
      * unfold without. cbn [filter]. rewrite Z.eqb_refl. cbn [negb].
        fold (without c r). rewrite (without_out c r NR).
        rewrite (upd_other _ c 0 prev NC), upd_same.
        apply chain_upd_out; [exact NR|]. apply chain_upd_out; [|exact C].
        intros I. apply NP. now right.
      * intros y Y. cbn [In] in Y. rewrite !upd_other; [reflexivity| |]; intros ->; apply Y; auto.
    + assert (XN : x <> c) by (apply Z.eqb_neq; exact XC).
      destruct (IH nx n x C ND XN ltac:(lia)) as (nx' & U & C' & O). exists nx'. split; [exact U|]. split.
      * unfold without. cbn [filter]. rewrite XC. cbn [negb chain]. rewrite (O prev NP), E.
        split; [reflexivity|]. split; [exact X|]. exact C'.
      * intros y Y. apply O. intros I. apply Y. now right.
Qed.

Lemma unregister_spec n s c l : found s = true -> chain (next s) (top s) l -> NoDup l -> (length l <= n)%nat ->
  exists s', unregister n s c = Some s' /\ chain (next s') (top s') (without c l) /\
    found s' = true /\ mine s' = mine s /\ plugs s' = plugs s.
Proof.
  intros F C ND L. unfold unregister. rewrite F. cbn [negb orb].
  destruct (c =? 0) eqn:C0.
  { apply Z.eqb_eq in C0. subst c. exists s. rewrite without_out by exact (chain_nonzero _ _ _ C).
    repeat split; assumption || reflexivity. }
  destruct l as [|x r]; cbn [chain] in C.
  { rewrite C, Z.eqb_refl. exists s. cbn [without filter chain]. repeat split; assumption || reflexivity. }
  destruct C as (T & X & C). apply Z.eqb_neq in X as X'. rewrite T, X'.
  destruct (x =? c) eqn:XC.
  - apply Z.eqb_eq in XC. rewrite XC in *. clear XC x. eexists. split; [reflexivity|]. cbn [next top found mine plugs].
    unfold without. cbn [filter]. rewrite Z.eqb_refl. cbn [negb]. fold (without c r).
    apply NoDup_cons_iff in ND as (NR & ND). rewrite (without_out c r NR).
    split; [|split; [first [exact F|reflexivity]|split; reflexivity]]. apply chain_upd_out; assumption.
  - cbn [length] in L. destruct (unlink_spec c r (next s) n x C ND) as (nx' & U & C' & _);
      [apply Z.eqb_neq; exact XC|lia|].
    rewrite U. eexists. split; [reflexivity|]. cbn [next top found mine plugs].
    unfold without. cbn [filter]. rewrite XC. cbn [negb chain]. repeat split; assumption || reflexivity.
Qed.

Definition without_all (cs l : list Z) : list Z := filter (fun x => negb (existsb (Z.eqb x) cs)) l.

Lemma filter_filter {A} (f g : A -> bool) l : filter g (filter f l) = filter (fun x => f x && g x) l.
Proof.
  induction l as [|x r IH]; cbn [filter]; [reflexivity|]. destruct (f x) eqn:F; cbn [andb filter]; rewrite IH; reflexivity.
Qed.

Lemma without_all_cons c cs l : without_all cs (without c l) = without_all (c :: cs) l.
Proof.
  unfold without_all, without. rewrite filter_filter. apply filter_ext. intros x. cbn [existsb].
  rewrite negb_orb. reflexivity.
Qed.

Lemma without_len c l : (length (without c l) <= length l)%nat.
Proof.
  unfold without. induction l as [|x r IH]; cbn [filter length]; [lia|].
  destruct (negb (x =? c)); cbn [length]; lia.
Qed.

Lemma unregister_each_spec n cs : forall s l, found s = true -> chain (next s) (top s) l -> NoDup l -> (length l <= n)%nat ->
  exists s', unregister_each n s cs = Some s' /\ chain (next s') (top s') (without_all cs l) /\
    found s' = true /\ mine s' = mine s /\ plugs s' = plugs s.
Proof.
  induction cs as [|c r IH]; cbn [unregister_each]; intros s l F C ND L.
  - exists s. unfold without_all. cbn [existsb negb].
    replace (filter (fun _ => true) l) with l by (clear; induction l as [|x r IH]; cbn; congruence).
    repeat split; assumption || reflexivity.
  - destruct (unregister_spec n s c l F C ND L) as (s1 & U & C1 & F1 & M1 & P1). rewrite U.
    destruct (IH s1 (without c l) F1 C1) as (s2 & U2 & C2 & F2 & M2 & P2).
    + unfold without. apply NoDup_filter. exact ND.
    + pose proof (without_len c l). lia.
    + exists s2. split; [exact U2|]. rewrite <- without_all_cons. split; [exact C2|].
      split; [exact F2|]. split; congruence.
Qed.

(** The plugins' lists. *)
Lemma on_list_keys f cmd id ps : map (fun e => (e_id e, e_api e)) (on_list f cmd id ps) = map (fun e => (e_id e, e_api e)) ps.
Proof.
  unfold on_list. rewrite map_map. apply map_ext. intros e. destruct (e_id e =? id), cmd; reflexivity.
Qed.

Lemma remove1_in c x l : NoDup l -> (In x (remove1 c l) <-> In x l /\ x <> c).
Proof.
  induction l as [|y r IH]; cbn [remove1 In]; intros ND; [tauto|].
  apply NoDup_cons_iff in ND as (NY & ND). destruct (y =? c) eqn:E.
  - apply Z.eqb_eq in E. subst y. split; [intros I; split; [now right|intros ->; contradiction]|].
    intros ([->|I] & N); [contradiction|exact I].
  - apply Z.eqb_neq in E. cbn [In]. rewrite (IH ND). split.
    + intros [->|(I & N)]; [split; [now left|exact E]|split; [now right|exact N]].
    + intros ([->|I] & N); [now left|right; split; assumption].
Qed.

Lemma remove1_nodup c l : NoDup l -> NoDup (remove1 c l).
Proof.
  induction l as [|y r IH]; cbn [remove1]; intros ND; [exact ND|].
  apply NoDup_cons_iff in ND as (NY & ND). destruct (y =? c); [exact ND|].
  constructor; [|exact (IH ND)]. rewrite (remove1_in c y r ND). tauto.
Qed.

Lemma nodup_snd_inj (ts : list (owner * Z)) w w' c : NoDup (map snd ts) -> In (w, c) ts -> In (w', c) ts -> w = w'.
Proof.
  induction ts as [|t r IH]; cbn [map In]; intros ND A B; [tauto|].
  apply NoDup_cons_iff in ND as (N & ND). destruct A as [->|A], B as [B|B].
  - congruence.
  - exfalso. apply N. apply (in_map snd) in B. exact B.
  - subst t. exfalso. apply N. apply (in_map snd) in A. exact A.
  - exact (IH ND A B).
Qed.

Section Refine.
Variable iscmd : Z -> bool.
Variable checks : bool.
Variable mm : Z -> bool.

Definition kept (e : entry) (ts : list (owner * Z)) : Prop :=
  NoDup (e_cvars e) /\ NoDup (e_cmds e) /\
  (forall c, In c (e_cvars e) <-> In (Plugin (e_id e), c) ts /\ iscmd c = false) /\
  (forall c, In c (e_cmds e) <-> In (Plugin (e_id e), c) ts /\ iscmd c = true).

Record Inv (s : st) (v : view) : Prop := {
  i_found : found s = true;
  i_chain : chain (next s) (top s) (map snd (things v));
  i_nodup : NoDup (map snd (things v));
  i_plugs : map (fun e => (e_id e, e_api e)) (plugs s) = loaded v;
  i_ids : NoDup (map fst (loaded v));
  i_kept : forall e, In e (plugs s) -> kept e (things v);
  i_mine : forall c, In (Metamod, c) (things v) -> In c (mine s);
  i_mm : forall c, In c (mine s) -> mm c = true;
  i_other : forall w c, In (w, c) (things v) -> w <> Metamod -> mm c = false;
  i_owner : forall i c, In (Plugin i, c) (things v) -> exists a, In (i, a) (loaded v) /\ a <> 0 }.

Lemma find_key ps api : find (fun p : Z * Z => snd p =? api) (map (fun e => (e_id e, e_api e)) ps) =
  option_map (fun e => (e_id e, e_api e)) (find (fun e => e_api e =? api) ps).
Proof.
  induction ps as [|e r IH]; cbn [map find snd]; [reflexivity|]. destruct (e_api e =? api); [reflexivity|exact IH].
Qed.

Lemma who_find s v api : Inv s v -> who v api = match find_by_api (plugs s) api with Some e => Plugin (e_id e) | None => Nobody end.
Proof.
  intros I. unfold who, find_by_api. destruct (api =? 0); [reflexivity|]. rewrite <- (i_plugs _ _ I), find_key.
  destruct (find (fun e => e_api e =? api) (plugs s)); reflexivity.
Qed.

Lemma same_id s v e e' : Inv s v -> In e (plugs s) -> In e' (plugs s) -> e_id e = e_id e' -> e = e'.
Proof.
  intros I. pose proof (i_ids _ _ I) as ND. rewrite <- (i_plugs _ _ I), map_map in ND. cbn [fst] in ND.
  revert ND. generalize (plugs s) as ps. induction ps as [|x r IH]; cbn [map In]; [tauto|].
  intros ND [->|A] [->|B] E; [reflexivity| | |].
  - apply NoDup_cons_iff in ND as (N & _). exfalso. apply N. rewrite E. apply (in_map e_id). exact B.
  - apply NoDup_cons_iff in ND as (N & _). exfalso. apply N. rewrite <- E. apply (in_map e_id). exact A.
  - apply NoDup_cons_iff in ND as (_ & ND). apply IH; assumption.
Qed.

(** Registration. *)
Lemma do_register_spec n s c l : chain (next s) (top s) l -> ~ In c l -> c <> 0 -> (length l <= n)%nat ->
  exists s', do_register checks n s c = Some s' /\ chain (next s') (top s') (c :: l) /\
    found s' = found s /\ mine s' = mine s /\ plugs s' = plugs s.
Proof.
  intros C N NZ L. unfold do_register, shown. rewrite (chain_follow _ _ _ n C L).
  assert (X : existsb (Z.eqb c) l = false).
  { destruct (existsb (Z.eqb c) l) eqn:E; [|reflexivity]. apply existsb_exists in E as (x & I & E).
    apply Z.eqb_eq in E. subst x. contradiction. }
  rewrite X. exists (St c (upd (upd (next s) c 0) c (top s)) (found s) (mine s) (plugs s)).
  split; [destruct checks; reflexivity|]. cbn [next top found mine plugs chain]. rewrite upd_same.
  split; [|repeat split; reflexivity]. split; [reflexivity|]. split; [exact NZ|].
  apply chain_upd_out; [exact N|]. apply chain_upd_out; [exact N|exact C].
Qed.

Lemma engine_register_spec n s c l : chain (next s) (top s) l -> ~ In c l -> c <> 0 -> (length l <= n)%nat ->
  exists s', engine_register checks n s c = Some s' /\ chain (next s') (top s') (c :: l) /\
    found s' = found s /\ mine s' = mine s /\ plugs s' = plugs s.
Proof.
  intros C N NZ L. unfold engine_register, shown. rewrite (chain_follow _ _ _ n C L).
  assert (X : existsb (Z.eqb c) l = false).
  { destruct (existsb (Z.eqb c) l) eqn:E; [|reflexivity]. apply existsb_exists in E as (x & I & E).
    apply Z.eqb_eq in E. subst x. contradiction. }
  rewrite X. exists (St c (upd (next s) c (top s)) (found s) (mine s) (plugs s)).
  split; [destruct checks; reflexivity|]. cbn [next top found mine plugs chain]. rewrite upd_same.
  split; [|repeat split; reflexivity]. split; [reflexivity|]. split; [exact NZ|].
  apply chain_upd_out; [exact N|exact C].
Qed.

(** A thing of another owner changes nothing for a plugin. *)
Lemma kept_other e ts w c : kept e ts -> w <> Plugin (e_id e) -> kept e ((w, c) :: ts).
Proof.
  intros (A & B & V & K) N. split; [exact A|]. split; [exact B|].
  split; intros x; cbn [In]; [rewrite (V x)|rewrite (K x)]; split.
  - intros (I & Q). split; [now right|exact Q].
  - intros ([E|I] & Q); [injection E as E1 _; contradiction|split; assumption].
  - intros (I & Q). split; [now right|exact Q].
  - intros ([E|I] & Q); [injection E as E1 _; contradiction|split; assumption].
Qed.

Lemma kept_add e ts c : kept e ts -> ~ In c (map snd ts) ->
  kept (if iscmd c then Entry (e_id e) (e_api e) (e_cvars e) (e_cmds e ++ [c])
        else Entry (e_id e) (e_api e) (e_cvars e ++ [c]) (e_cmds e)) ((Plugin (e_id e), c) :: ts).
Proof.
  intros (A & B & V & K) N.
  assert (NV : ~ In c (e_cvars e)) by (intros I; apply V in I as (I & _); apply (in_map snd) in I; contradiction).
  assert (NK : ~ In c (e_cmds e)) by (intros I; apply K in I as (I & _); apply (in_map snd) in I; contradiction).
  assert (AD : forall l, NoDup l -> ~ In c l -> NoDup (l ++ [c])).
  { intros l ND NI. apply NoDup_rev in ND. rewrite <- (rev_involutive (l ++ [c])), rev_app_distr. apply NoDup_rev.
    cbn. constructor; [rewrite <- in_rev; exact NI|exact ND]. }
  destruct (iscmd c) eqn:Q; unfold kept; cbn [e_id e_cvars e_cmds].
  - split; [exact A|]. split; [exact (AD _ B NK)|]. split; intros x; cbn [In].
    + rewrite (V x). split; [intros (I & R); split; [now right|exact R]|].
      intros ([E|I] & R); [injection E as E1; congruence|split; assumption].
    + rewrite in_app_iff. cbn [In]. rewrite (K x). split.
      * intros [(I & R)|[->|[]]]; [split; [now right|exact R]|split; [now left|exact Q]].
      * intros ([E|I] & R); [injection E as E1; right; now left|left; split; assumption].
  - split; [exact (AD _ A NV)|]. split; [exact B|]. split; intros x; cbn [In].
    + rewrite in_app_iff. cbn [In]. rewrite (V x). split.
      * intros [(I & R)|[->|[]]]; [split; [now right|exact R]|split; [now left|exact Q]].
      * intros ([E|I] & R); [injection E as E1; right; now left|left; split; assumption].
    + rewrite (K x). split; [intros (I & R); split; [now right|exact R]|].
      intros ([E|I] & R); [injection E as E1; congruence|split; assumption].
Qed.

Lemma inv_add s s' v w c : Inv s v -> fresh v c -> chain (next s') (top s') (c :: map snd (things v)) ->
  found s' = found s -> map (fun e => (e_id e, e_api e)) (plugs s') = loaded v ->
  (forall e, In e (plugs s') -> kept e ((w, c) :: things v)) ->
  (w = Metamod -> In c (mine s')) -> (forall x, In x (mine s) -> In x (mine s')) ->
  (forall x, In x (mine s') -> mm x = true) -> (w <> Metamod -> mm c = false) ->
  (forall i, w = Plugin i -> exists a, In (i, a) (loaded v) /\ a <> 0) ->
  Inv s' (View ((w, c) :: things v) (loaded v)).
Proof.
  intros I (NZ & NI) C F P K M1 M2 M3 M4 O. constructor; cbn [things loaded map snd].
  - rewrite F. exact (i_found _ _ I).
  - exact C.
  - constructor; [exact NI|exact (i_nodup _ _ I)].
  - exact P.
  - exact (i_ids _ _ I).
  - exact K.
  - intros x [E|X]; [injection E as -> ->; apply M1; reflexivity|]. apply M2. exact (i_mine _ _ I x X).
  - exact M3.
  - intros w' x [E|X] N; [injection E as -> ->; apply M4; exact N|]. exact (i_other _ _ I w' x X N).
  - intros i x [E|X]; [injection E as -> ->; apply O; reflexivity|]. exact (i_owner _ _ I i x X).
Qed.

Lemma inv_remove s s' v keep ld : Inv s v -> chain (next s') (top s') (map snd (filter keep (things v))) ->
  found s' = true -> mine s' = mine s -> map (fun e => (e_id e, e_api e)) (plugs s') = ld -> NoDup (map fst ld) ->
  (forall e, In e (plugs s') -> kept e (filter keep (things v))) ->
  (forall i c a, In (Plugin i, c) (things v) -> keep (Plugin i, c) = true -> In (i, a) (loaded v) -> In (i, a) ld) ->
  Inv s' (View (filter keep (things v)) ld).
Proof.
  intros I C F M P ND K O. constructor; cbn [things loaded].
  - exact F.
  - exact C.
  - clear C K. pose proof (i_nodup _ _ I) as N. revert N. generalize (things v) as ts.
    induction ts as [|t r IH]; cbn [filter map]; intros N; [constructor|]. apply NoDup_cons_iff in N as (NI & N).
    destruct (keep t); cbn [map]; [|exact (IH N)]. constructor; [|exact (IH N)].
    intros X. apply NI. apply in_map_iff in X as (y & E & Y). apply filter_In in Y as (Y & _).
    rewrite <- E. apply in_map. exact Y.
  - exact P.
  - exact ND.
  - exact K.
  - intros c X. apply filter_In in X as (X & _). rewrite M. exact (i_mine _ _ I c X).
  - rewrite M. exact (i_mm _ _ I).
  - intros w c X N. apply filter_In in X as (X & _). exact (i_other _ _ I w c X N).
  - intros i c X. apply filter_In in X as (X & KX). destruct (i_owner _ _ I i c X) as (a & A & NA).
    exists a. split; [exact (O i c a X KX A)|exact NA].
Qed.

Lemma kept_filter e ts keep : kept e ts -> (forall c, In (Plugin (e_id e), c) ts -> keep (Plugin (e_id e), c) = true) ->
  kept e (filter keep ts).
Proof.
  intros (A & B & V & K) H. split; [exact A|]. split; [exact B|].
  split; intros x; rewrite filter_In; [rewrite (V x)|rewrite (K x)]; split.
  - intros (I & Q). repeat split; [exact I|exact (H x I)|exact Q].
  - intros ((I & _) & Q). split; assumption.
  - intros (I & Q). repeat split; [exact I|exact (H x I)|exact Q].
  - intros ((I & _) & Q). split; assumption.
Qed.

Lemma map_filter_without c (ts : list (owner * Z)) : map snd (filter (fun t => negb (snd t =? c)) ts) = without c (map snd ts).
Proof.
  unfold without. induction ts as [|t r IH]; cbn [filter map]; [reflexivity|].
  destruct (snd t =? c); cbn [negb map]; [exact IH|f_equal; exact IH].
Qed.

Lemma map_filter_all cs keep (ts : list (owner * Z)) : (forall t, In t ts -> keep t = negb (existsb (Z.eqb (snd t)) cs)) ->
  map snd (filter keep ts) = without_all cs (map snd ts).
Proof.
  unfold without_all. induction ts as [|t r IH]; cbn [filter map]; intros H; [reflexivity|].
  rewrite (H t (or_introl eq_refl)). destruct (negb (existsb (Z.eqb (snd t)) cs)); cbn [map];
    rewrite IH by (intros u U; apply H; now right); reflexivity.
Qed.

Lemma without_all_app a b l : without_all b (without_all a l) = without_all (a ++ b) l.
Proof.
  unfold without_all. rewrite filter_filter. apply filter_ext. intros x. rewrite existsb_app, negb_orb. reflexivity.
Qed.

Lemma without_all_len cs l : (length (without_all cs l) <= length l)%nat.
Proof.
  unfold without_all. induction l as [|x r IH]; cbn [filter length]; [lia|].
  destruct (negb (existsb (Z.eqb x) cs)); cbn [length]; lia.
Qed.

Lemma unreg_all_spec n s e l : found s = true -> chain (next s) (top s) l -> NoDup l -> (length l <= n)%nat ->
  exists s', unreg_all n s e = Some s' /\ chain (next s') (top s') (without_all (e_cvars e ++ e_cmds e) l) /\
    found s' = true /\ mine s' = mine s /\
    plugs s' = on_list (fun _ => []) true (e_id e) (on_list (fun _ => []) false (e_id e) (plugs s)).
Proof.
  intros F C ND L. unfold unreg_all.
  destruct (unregister_each_spec n (e_cvars e) s l F C ND L) as (s1 & U & C1 & F1 & M1 & P1). rewrite U.
  destruct (unregister_each_spec n (e_cmds e) (set_plugs s1 (on_list (fun _ => []) false (e_id e) (plugs s1)))
              (without_all (e_cvars e) l)) as (s2 & U2 & C2 & F2 & M2 & P2).
  - exact F1.
  - exact C1.
  - unfold without_all. apply NoDup_filter. exact ND.
  - pose proof (without_all_len (e_cvars e) l). lia.
  - rewrite U2. eexists. split; [reflexivity|]. unfold set_plugs in *. cbn [next top found mine plugs] in *.
    rewrite <- without_all_app. split; [exact C2|]. split; [exact F2|]. split; [congruence|]. rewrite P2, P1. reflexivity.
Qed.

Lemma cleared_in id ps x : In x (on_list (fun _ => []) true id (on_list (fun _ => []) false id ps)) ->
  exists e, In e ps /\ e_id x = e_id e /\ e_api x = e_api e /\
    (if e_id e =? id then e_cvars x = [] /\ e_cmds x = [] else x = e).
Proof.
  unfold on_list. rewrite map_map. intros X. apply in_map_iff in X as (e & E & I). exists e. split; [exact I|].
  destruct (e_id e =? id) eqn:Q; cbn [e_id] in E; rewrite ?Q in E; subst x; cbn [e_id e_api e_cvars e_cmds];
    repeat split; reflexivity.
Qed.

(** After all of a plugin's things are taken out, the view is the one without them. *)
Lemma owned_filter s v e : Inv s v -> In e (plugs s) ->
  map snd (filter (not_of (e_id e)) (things v)) = without_all (e_cvars e ++ e_cmds e) (map snd (things v)).
Proof.
  intros I E. apply map_filter_all. intros (w, c) T. destruct (i_kept _ _ I e E) as (_ & _ & V & K). cbn [snd].
  destruct (existsb (Z.eqb c) (e_cvars e ++ e_cmds e)) eqn:X; cbn [negb].
  - apply existsb_exists in X as (y & Y & EQ). apply Z.eqb_eq in EQ. subst y. apply in_app_iff in Y.
    assert (O : In (Plugin (e_id e), c) (things v)) by (destruct Y as [Y|Y]; [apply V in Y|apply K in Y]; exact (proj1 Y)).
    rewrite (nodup_snd_inj (things v) w _ c (i_nodup _ _ I) T O). unfold not_of. cbn [fst]. rewrite Z.eqb_refl. reflexivity.
  - unfold not_of. cbn [fst]. destruct w as [| | |i]; try reflexivity. destruct (i =? e_id e) eqn:Q; [|reflexivity].
    apply Z.eqb_eq in Q. subst i. assert (Y : In c (e_cvars e ++ e_cmds e)).
    { apply in_app_iff. destruct (iscmd c) eqn:B; [right; apply K|left; apply V]; split; assumption. }
    exfalso. enough (Z1 : existsb (Z.eqb c) (e_cvars e ++ e_cmds e) = true) by congruence.
    apply existsb_exists. exists c. split; [exact Y|apply Z.eqb_refl].
Qed.

Lemma kept_cleared s v e0 x e : Inv s v -> In e (plugs s) -> e_id x = e_id e ->
  (if e_id e =? e_id e0 then e_cvars x = [] /\ e_cmds x = [] else x = e) ->
  kept x (filter (not_of (e_id e0)) (things v)).
Proof.
  intros I E EI X. destruct (e_id e =? e_id e0) eqn:Q.
  - apply Z.eqb_eq in Q. destruct X as (X1 & X2).
    assert (N : forall c, ~ In (Plugin (e_id x), c) (filter (not_of (e_id e0)) (things v))).
    { intros c Y. apply filter_In in Y as (_ & Y). unfold not_of in Y. cbn [fst] in Y.
      rewrite EI, Q, Z.eqb_refl in Y. discriminate. }
    unfold kept. rewrite X1, X2. split; [constructor|]. split; [constructor|].
    split; intros c; (split; [intros []|intros (Y & _); exact (N c Y)]).
  - subst x. apply kept_filter; [exact (i_kept _ _ I e E)|]. intros c _. unfold not_of. cbn [fst]. rewrite Q. reflexivity.
Qed.

Lemma find_id_in s v id e : Inv s v -> find_by_id (plugs s) id = Some e -> In e (plugs s) /\ e_id e = id.
Proof.
  intros _ H. unfold find_by_id in H. apply find_some in H as (A & B). apply Z.eqb_eq in B. split; assumption.
Qed.

Lemma find_id_none s v id : Inv s v -> find_by_id (plugs s) id = None -> ~ In id (map fst (loaded v)).
Proof.
  intros I H X. rewrite <- (i_plugs _ _ I), map_map in X. cbn [fst] in X. apply in_map_iff in X as (e & E & IE).
  unfold find_by_id in H. pose proof (find_none _ _ H e IE) as N. cbn in N. apply Z.eqb_neq in N. contradiction.
Qed.

Lemma filter_id {A} (f : A -> bool) l : (forall x, In x l -> f x = true) -> filter f l = l.
Proof.
  induction l as [|x r IH]; cbn [filter]; intros H; [reflexivity|]. rewrite (H x (or_introl eq_refl)), IH; [reflexivity|].
  intros y Y. apply H. now right.
Qed.

Lemma not_of_absent s v id : Inv s v -> (forall a, In (id, a) (loaded v) -> a = 0) -> filter (not_of id) (things v) = things v.
Proof.
  intros I N. apply filter_id. intros (w, c) T. unfold not_of. cbn [fst]. destruct w as [| | |i]; try reflexivity.
  destruct (i =? id) eqn:Q; [|reflexivity]. apply Z.eqb_eq in Q. subst i. destruct (i_owner _ _ I id c T) as (a & A & NA).
  exfalso. exact (NA (N a A)).
Qed.

Lemma drop_keys id ps : map (fun e => (e_id e, e_api e)) (drop id ps) =
  filter (fun p : Z * Z => negb (fst p =? id)) (map (fun e => (e_id e, e_api e)) ps).
Proof.
  unfold drop. induction ps as [|e r IH]; cbn [filter map fst]; [reflexivity|].
  destruct (negb (e_id e =? id)); cbn [map]; [f_equal; exact IH|exact IH].
Qed.

Lemma nodup_drop (l : list (Z * Z)) f : NoDup (map fst l) -> NoDup (map fst (filter f l)).
Proof.
  induction l as [|p r IH]; cbn [map filter]; intros N; [constructor|]. apply NoDup_cons_iff in N as (NI & N).
  destruct (f p); cbn [map]; [|exact (IH N)]. constructor; [|exact (IH N)].
  intros X. apply NI. apply in_map_iff in X as (y & E & Y). apply filter_In in Y as (Y & _). rewrite <- E. apply in_map. exact Y.
Qed.

Lemma sim_step n s v o : Inv s v -> allowed mm v o -> (length (things v) <= n)%nat ->
  exists s', step iscmd checks n s o = Some s' /\ Inv s' (spec_step v o).
Proof.
  intros I A L.
  assert (L' : (length (map snd (things v)) <= n)%nat) by (rewrite map_length; exact L).
  destruct o as [c|c| |id api|api c|api c|id|id]; cbn [step spec_step allowed] in *.
  - destruct A as (FR & MM). pose proof FR as (NZ & NI).
    destruct (engine_register_spec n s c _ (i_chain _ _ I) NI NZ L') as (s' & R & C & F & M & P).
    exists s'. split; [exact R|]. apply (inv_add s); try assumption.
    + rewrite P. exact (i_plugs _ _ I).
    + rewrite P. intros e E. apply kept_other; [exact (i_kept _ _ I e E)|discriminate].
    + discriminate.
    + rewrite M. tauto.
    + rewrite M. exact (i_mm _ _ I).
    + intros _. exact MM.
    + discriminate.
  - destruct A as (FR & MM). pose proof FR as (NZ & NI).
    destruct (do_register_spec n (St (top s) (next s) (found s) (mine s ++ [c]) (plugs s)) c _ (i_chain _ _ I) NI NZ L')
      as (s' & R & C & F & M & P). cbn [found mine plugs] in *.
    exists s'. split; [exact R|]. apply (inv_add s); try assumption.
    + rewrite P. exact (i_plugs _ _ I).
    + rewrite P. intros e E. apply kept_other; [exact (i_kept _ _ I e E)|discriminate].
    + intros _. rewrite M. apply in_app_iff. right. now left.
    + intros x X. rewrite M. apply in_app_iff. now left.
    + rewrite M. intros x X. apply in_app_iff in X as [X|[->|[]]]; [exact (i_mm _ _ I x X)|exact MM].
    + congruence.
    + discriminate.
  - destruct (unregister_each_spec n (mine s) s _ (i_found _ _ I) (i_chain _ _ I) (i_nodup _ _ I) L')
      as (s' & R & C & F & M & P). exists s'. split; [exact R|]. apply (inv_remove s); try assumption.
    + rewrite (map_filter_all (mine s)); [exact C|]. intros (w, c) T. unfold not_metamod. cbn [fst snd].
      destruct (existsb (Z.eqb c) (mine s)) eqn:X.
      * apply existsb_exists in X as (y & Y & EQ). apply Z.eqb_eq in EQ. subst y. apply (i_mm _ _ I) in Y.
        destruct w; try reflexivity; exfalso; rewrite (i_other _ _ I _ _ T) in Y by discriminate; discriminate.
      * destruct w; try reflexivity. apply (i_mine _ _ I) in T. exfalso.
        enough (Z1 : existsb (Z.eqb c) (mine s) = true) by congruence. apply existsb_exists. exists c. split; [exact T|apply Z.eqb_refl].
    + rewrite P. exact (i_plugs _ _ I).
    + exact (i_ids _ _ I).
    + rewrite P. intros e E. apply kept_filter; [exact (i_kept _ _ I e E)|]. intros; reflexivity.
    + intros i c a _ _ X. exact X.
  - exists (set_plugs s (plugs s ++ [Entry id api [] []])). split; [reflexivity|].
    destruct I as [I1 I2 I3 I4 I5 I6 I7 I8 I9 I10]. constructor; cbn [set_plugs found next top mine plugs things loaded]; try assumption.
    + rewrite map_app, I4. reflexivity.
    + rewrite map_app. cbn [map fst]. apply NoDup_rev in I5.
      rewrite <- (rev_involutive (map fst (loaded v) ++ [id])), rev_app_distr. apply NoDup_rev. cbn.
      constructor; [rewrite <- in_rev; exact A|exact I5].
    + intros e E. apply in_app_iff in E as [E|[<-|[]]]; [exact (I6 e E)|].
      assert (N : forall c, ~ In (Plugin id, c) (things v)).
      { intros c X. destruct (I10 id c X) as (a & Y & _). apply A. apply (in_map fst) in Y. exact Y. }
      unfold kept. cbn [e_id e_cvars e_cmds]. split; [constructor|]. split; [constructor|].
      split; intros c; (split; [intros []|intros (Y & _); exact (N c Y)]).
    + intros i c X. destruct (I10 i c X) as (a & Y & NA). exists a. split; [apply in_app_iff; now left|exact NA].
  - destruct A as (FR & MM). pose proof FR as (NZ & NI). rewrite (who_find s v api I).
    destruct (find_by_api (plugs s) api) as [e0|] eqn:FA.
    + assert (E0 : In e0 (plugs s) /\ e_api e0 = api /\ api <> 0).
      { unfold find_by_api in FA. destruct (api =? 0) eqn:Q; [discriminate|]. apply find_some in FA as (X & Y).
        apply Z.eqb_eq in Y. apply Z.eqb_neq in Q. repeat split; assumption. }
      destruct E0 as (IN0 & AP0 & NA0). unfold track. rewrite FA.
      set (ps := on_list (fun l => l ++ [c]) (iscmd c) (e_id e0) (plugs s)).
      destruct (do_register_spec n (set_plugs s ps) c _ (i_chain _ _ I) NI NZ L') as (s' & R & C & F & M & P).
      unfold set_plugs in *. cbn [found mine plugs] in *. exists s'. split; [exact R|]. apply (inv_add s); try assumption.
      * rewrite P. unfold ps. rewrite on_list_keys. exact (i_plugs _ _ I).
      * rewrite P. unfold ps, on_list. intros x X. apply in_map_iff in X as (e & E & IE).
        pose proof (i_kept _ _ I e IE) as KE. destruct (e_id e =? e_id e0) eqn:Q.
        -- apply Z.eqb_eq in Q. rewrite <- E, <- Q. apply kept_add; assumption.
        -- apply Z.eqb_neq in Q. subst x. apply kept_other; [exact KE|]. intros Y. injection Y as Y. congruence.
      * discriminate.
      * rewrite M. tauto.
      * rewrite M. exact (i_mm _ _ I).
      * intros _. exact MM.
      * intros i Y. injection Y as <-. exists api. split; [|exact NA0]. rewrite <- (i_plugs _ _ I), <- AP0.
        apply (in_map (fun e => (e_id e, e_api e))). exact IN0.
    + unfold track. rewrite FA.
      destruct (do_register_spec n s c _ (i_chain _ _ I) NI NZ L') as (s' & R & C & F & M & P).
      exists s'. split; [exact R|]. apply (inv_add s); try assumption.
      * rewrite P. exact (i_plugs _ _ I).
      * rewrite P. intros e E. apply kept_other; [exact (i_kept _ _ I e E)|discriminate].
      * discriminate.
      * rewrite M. tauto.
      * rewrite M. exact (i_mm _ _ I).
      * intros _. exact MM.
      * discriminate.
  - rewrite (who_find s v api I) in A. unfold track.
    destruct (find_by_api (plugs s) api) as [e0|] eqn:FA.
    + set (ps := on_list (remove1 c) (iscmd c) (e_id e0) (plugs s)).
      destruct (unregister_spec n (set_plugs s ps) c _ (i_found _ _ I) (i_chain _ _ I) (i_nodup _ _ I) L') as (s' & R & C & F & M & P).
      unfold set_plugs in *. cbn [found mine plugs] in *. exists s'. split; [exact R|]. apply (inv_remove s); try assumption.
      * rewrite map_filter_without. exact C.
      * rewrite P. unfold ps. rewrite on_list_keys. exact (i_plugs _ _ I).
      * exact (i_ids _ _ I).
      * rewrite P. unfold ps, on_list. intros x X. apply in_map_iff in X as (e & E & IE).
        pose proof (i_kept _ _ I e IE) as KE. destruct (e_id e =? e_id e0) eqn:Q.
        -- destruct KE as (K1 & K2 & KV & KC). subst x. destruct (iscmd c) eqn:B; unfold kept; cbn [e_id e_cvars e_cmds].
           ++ split; [exact K1|]. split; [apply remove1_nodup; exact K2|]. split; intros y; rewrite filter_In; cbn [snd].
              ** rewrite (KV y). split; [intros (Y & Z1)|intros ((Y & _) & Z1); split; assumption].
                 repeat split; try assumption. destruct (y =? c) eqn:YC; [|reflexivity]. apply Z.eqb_eq in YC. congruence.
              ** rewrite (remove1_in c y _ K2), (KC y). rewrite negb_true_iff, Z.eqb_neq. tauto.
           ++ split; [apply remove1_nodup; exact K1|]. split; [exact K2|]. split; intros y; rewrite filter_In; cbn [snd].
              ** rewrite (remove1_in c y _ K1), (KV y). rewrite negb_true_iff, Z.eqb_neq. tauto.
              ** rewrite (KC y). split; [intros (Y & Z1)|intros ((Y & _) & Z1); split; assumption].
                 repeat split; try assumption. destruct (y =? c) eqn:YC; [|reflexivity]. apply Z.eqb_eq in YC. congruence.
        -- subst x. apply kept_filter; [exact KE|]. intros y Y. cbn [snd]. destruct (y =? c) eqn:YC; [|reflexivity].
           apply Z.eqb_eq in YC. subst y. apply A in Y. injection Y as Y. apply Z.eqb_neq in Q. congruence.
      * intros i y a _ _ X. exact X.
    + destruct (unregister_spec n s c _ (i_found _ _ I) (i_chain _ _ I) (i_nodup _ _ I) L') as (s' & R & C & F & M & P).
      exists s'. split; [exact R|]. apply (inv_remove s); try assumption.
      * rewrite map_filter_without. exact C.
      * rewrite P. exact (i_plugs _ _ I).
      * exact (i_ids _ _ I).
      * rewrite P. intros e E. apply kept_filter; [exact (i_kept _ _ I e E)|]. intros y Y.
        cbn [snd]. destruct (y =? c) eqn:YC; [|reflexivity]. apply Z.eqb_eq in YC. subst y. apply A in Y. discriminate.
      * intros i y a _ _ X. exact X.
  - destruct (find_by_id (plugs s) id) as [e|] eqn:FI.
    + destruct (find_id_in s v id e I FI) as (IE & EID).
      destruct (unreg_all_spec n s e _ (i_found _ _ I) (i_chain _ _ I) (i_nodup _ _ I) L') as (s1 & R & C & F & M & P).
      rewrite R. cbn [option_map]. eexists. split; [reflexivity|]. unfold set_plugs.
      apply (inv_remove s); cbn [next top found mine plugs]; try assumption.
      * rewrite <- EID, (owned_filter s v e I IE). exact C.
      * rewrite P, <- (i_plugs _ _ I). unfold on_list. rewrite !map_map. apply map_ext. intros x. rewrite EID.
        destruct (e_id x =? id) eqn:Q; cbn [e_id]; rewrite ?Q; cbn [e_id e_api fst]; rewrite ?Q; [|reflexivity].
        apply Z.eqb_eq in Q. rewrite Q. reflexivity.
      * rewrite map_map. replace (map _ (loaded v)) with (map fst (loaded v)); [exact (i_ids _ _ I)|].
        apply map_ext. intros (i, a). cbn [fst]. destruct (i =? id) eqn:Q; [apply Z.eqb_eq in Q; subst i|]; reflexivity.
      * intros x X. apply in_map_iff in X as (y & E & IY). rewrite P in IY. apply cleared_in in IY as (z & IZ & E1 & E2 & E3).
        rewrite <- EID. destruct (e_id y =? id) eqn:Q.
        -- subst x. apply (kept_cleared s v e _ z I IZ); cbn [e_id e_cvars e_cmds]; [exact E1|].
           apply Z.eqb_eq in Q. rewrite <- E1, Q, EID, Z.eqb_refl in *. exact E3.
        -- subst x. apply (kept_cleared s v e _ z I IZ E1 E3).
      * intros i c a X KX Y. apply in_map_iff. exists (i, a). split; [|exact Y]. cbn [fst].
        unfold not_of in KX. cbn [fst] in KX. apply negb_true_iff in KX. rewrite KX. reflexivity.
    + exists s. split; [reflexivity|]. pose proof (find_id_none s v id I FI) as N.
      rewrite (not_of_absent s v id I) by (intros a X; apply (in_map fst) in X; contradiction).
      replace (map (fun p => if fst p =? id then (id, 0) else p) (loaded v)) with (loaded v); [destruct v; exact I|].
      rewrite <- (map_id (loaded v)) at 1. apply map_ext_in. intros (i, a) X. cbn [fst].
      destruct (i =? id) eqn:Q; [|reflexivity]. apply Z.eqb_eq in Q. subst i. apply (in_map fst) in X. contradiction.
  - destruct (find_by_id (plugs s) id) as [e|] eqn:FI.
    + destruct (find_id_in s v id e I FI) as (IE & EID). destruct (e_api e =? 0) eqn:AZ.
      * apply Z.eqb_eq in AZ. eexists. split; [reflexivity|].
        assert (NT : filter (not_of id) (things v) = things v).
        { apply (not_of_absent s v id I). intros a X. rewrite <- (i_plugs _ _ I) in X. apply in_map_iff in X as (x & E & IX).
          injection E as E1 E2. rewrite (same_id s v x e I IX IE) in E2 by congruence. congruence. }
        unfold set_plugs. apply (inv_remove s); cbn [next top found mine plugs].
        -- exact I.
        -- rewrite NT. exact (i_chain _ _ I).
        -- exact (i_found _ _ I).
        -- reflexivity.
        -- rewrite drop_keys, (i_plugs _ _ I). reflexivity.
        -- apply nodup_drop. exact (i_ids _ _ I).
        -- intros x X. unfold drop in X. apply filter_In in X as (X & _). rewrite NT. exact (i_kept _ _ I x X).
        -- intros i c a X KX Y. apply filter_In. split; [exact Y|]. exact KX.
      * destruct (unreg_all_spec n s e _ (i_found _ _ I) (i_chain _ _ I) (i_nodup _ _ I) L') as (s1 & R & C & F & M & P).
        rewrite R. cbn [option_map]. eexists. split; [reflexivity|]. unfold set_plugs.
        apply (inv_remove s); cbn [next top found mine plugs]; try assumption.
        -- rewrite <- EID, (owned_filter s v e I IE). exact C.
        -- rewrite drop_keys, P, !on_list_keys, (i_plugs _ _ I). reflexivity.
        -- apply nodup_drop. exact (i_ids _ _ I).
        -- intros x X. unfold drop in X. apply filter_In in X as (X & _). rewrite P in X.
           apply cleared_in in X as (z & IZ & E1 & E2 & E3). rewrite <- EID. exact (kept_cleared s v e x z I IZ E1 E3).
        -- intros i c a X KX Y. apply filter_In. split; [exact Y|]. exact KX.
    + exists s. split; [reflexivity|]. pose proof (find_id_none s v id I FI) as N.
      rewrite (not_of_absent s v id I) by (intros a X; apply (in_map fst) in X; contradiction).
      rewrite filter_id; [destruct v; exact I|]. intros (i, a) X. cbn [fst]. destruct (i =? id) eqn:Q; [|reflexivity].
      apply Z.eqb_eq in Q. subst i. apply (in_map fst) in X. contradiction.
Qed.

Lemma filter_len {A} (f : A -> bool) l : (length (filter f l) <= length l)%nat.
Proof. induction l as [|x r IH]; cbn [filter length]; [lia|]. destruct (f x); cbn [length]; lia. Qed.

Lemma spec_len v o : (length (things (spec_step v o)) <= S (length (things v)))%nat.
Proof.
  destruct o; cbn [spec_step things length]; try lia.
  all: match goal with |- context [filter ?f ?l] => pose proof (filter_len f l); lia end.
Qed.

Lemma sim_run os : forall n s v, Inv s v -> allowed_all mm v os -> (length (things v) + length os <= n)%nat ->
  exists s', run iscmd checks n s os = Some s' /\ Inv s' (spec_run v os).
Proof.
  induction os as [|o r IH]; cbn [allowed_all run length]; intros n s v I A L.
  - exists s. split; [reflexivity|exact I].
  - destruct A as (A & AR). destruct (sim_step n s v o I A ltac:(lia)) as (s1 & R & I1). rewrite R.
    pose proof (spec_len v o). destruct (IH n s1 _ I1 AR ltac:(lia)) as (s2 & R2 & I2). exists s2. split; [exact R2|exact I2].
Qed.

Lemma spec_run_len os : forall v, (length (things (spec_run v os)) <= length (things v) + length os)%nat.
Proof.
  unfold spec_run. induction os as [|o r IH]; cbn [fold_left length]; intros v; [lia|].
  pose proof (IH (spec_step v o)). pose proof (spec_len v o). lia.
Qed.

Lemma inv_start : Inv (start true) nothing.
Proof.
  constructor; cbn; try reflexivity; try constructor; intros; try contradiction.
Qed.
End Refine.
