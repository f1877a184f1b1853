(** Proofs about console commands and variables of plugins on Source 2. *)
From Coq Require Import List ZArith Bool Lia.
From Verif Require Import CmdModel S2cModel S2cSpec.
Import ListNotations.
Local Open Scope Z_scope.

(** The objects in force of one plugin and kind. *)
Definition objs (l : list reg) (id : Z) (b : bool) : list Z :=
  map snd (filter (fun a => (fst (fst a) =? id) && eqb (snd (fst a)) b) l).

Definition pair_of (e : entry) : Z * Z := (e_id e, e_api e).
Definition listed (ps : list entry) : list (Z * Z) :=
  map pair_of (filter (fun e => negb (e_api e =? 0)) ps).

Record agrees (ps : list entry) (x : sp) : Prop := Agrees {
  a_on : on x = listed ps;
  a_nodup : NoDup (map e_id ps);
  a_used : forall e, In e ps -> In (e_id e) (used x);
  a_force_used : forall a, In a (force x) -> In (fst (fst a)) (used x);
  a_live : forall a, In a (force x) -> In (fst (fst a)) (map fst (on x));
  a_lists : forall e, In e ps -> e_cmds e = objs (force x) (e_id e) true /\ e_cvars e = objs (force x) (e_id e) false
}.

Lemma find_listed : forall ps api, api <> 0 ->
  option_map e_id (find (fun e => e_api e =? api) ps) =
  option_map fst (find (fun p => snd p =? api) (listed ps)).
Proof.
  intros ps api Ha. induction ps as [|e r IH]; [reflexivity|].
  unfold listed in *; cbn [find filter].
  destruct (e_api e =? api) eqn:E.
  - apply Z.eqb_eq in E. replace (e_api e =? 0) with false by (symmetry; apply Z.eqb_neq; lia).
    cbn. replace (e_api e =? api) with true by (symmetry; apply Z.eqb_eq; lia). reflexivity.
  - destruct (e_api e =? 0) eqn:E0; cbn [negb map find snd pair_of].
    + exact IH.
    + rewrite E. exact IH.
Qed.

Lemma who_found : forall ps x api, agrees ps x -> api <> 0 ->
  who x api = option_map e_id (find_by_api ps api).
Proof.
  intros ps x api A Ha. unfold who, find_by_api. rewrite (a_on _ _ A).
  replace (api =? 0) with false by (symmetry; apply Z.eqb_neq; lia).
  symmetry; apply find_listed; assumption.
Qed.

Lemma on_list_ids : forall f b id ps, map e_id (on_list f b id ps) = map e_id ps.
Proof.
  intros. unfold on_list. rewrite map_map. apply map_ext. intro e.
  destruct (e_id e =? id), b; reflexivity.
Qed.

Lemma on_list_pairs : forall f b id ps, listed (on_list f b id ps) = listed ps.
Proof.
  intros. unfold listed, on_list. induction ps as [|e r IH]; [reflexivity|].
  cbn [map filter]. 
  replace (e_api (if e_id e =? id
     then if b then Entry (e_id e) (e_api e) (e_cvars e) (f (e_cmds e)) else Entry (e_id e) (e_api e) (f (e_cvars e)) (e_cmds e)
     else e)) with (e_api e) by (destruct (e_id e =? id), b; reflexivity).
  destruct (e_api e =? 0); cbn [negb map]; [exact IH|]. f_equal; [|exact IH].
  destruct (e_id e =? id), b; reflexivity.
Qed.

Lemma objs_app : forall l id b i b' r,
  objs (l ++ [(i, b', r)]) id b = if (i =? id) && eqb b' b then objs l id b ++ [r] else objs l id b.
Proof.
  intros. unfold objs. rewrite filter_app, map_app. cbn [filter fst snd].
  destruct ((i =? id) && eqb b' b); cbn [map]; [reflexivity|apply app_nil_r].
Qed.

Lemma objs_take1 : forall l id b i b' r,
  objs (take1 (i, b', r) l) id b = if (i =? id) && eqb b' b then remove1 r (objs l id b) else objs l id b.
Proof.
  intros l id b i b' r. induction l as [|a l IH].
  - cbn. destruct ((i =? id) && eqb b' b); reflexivity.
  - cbn [take1]. destruct (same a (i, b', r)) eqn:S.
    + unfold same in S. cbn [fst snd] in S. rewrite !andb_true_iff in S. destruct S as [[S1 S2] S3].
      apply Z.eqb_eq in S1, S3. apply eqb_prop in S2.
      unfold objs at 2 3; cbn [filter]. rewrite S1, S2.
      destruct ((i =? id) && eqb b' b); [|reflexivity].
      cbn [map remove1]. rewrite S3, Z.eqb_refl. reflexivity.
    + unfold objs in *; cbn [filter].
      destruct ((fst (fst a) =? id) && eqb (snd (fst a)) b) eqn:F; [|exact IH].
      cbn [map]. rewrite IH. destruct ((i =? id) && eqb b' b) eqn:G; [|reflexivity].
      cbn [remove1]. rewrite andb_true_iff in F, G. destruct F as [F1 F2], G as [G1 G2].
      apply Z.eqb_eq in F1, G1. apply eqb_prop in F2, G2.
      unfold same in S. cbn [fst snd] in S.
      rewrite F1, F2, <- G1, <- G2, Z.eqb_refl, eqb_reflx in S. cbn [andb] in S.
      subst. rewrite S. reflexivity.
Qed.

Lemma take1_in : forall a b l, In b (take1 a l) -> In b l.
Proof.
  intros a b l. induction l as [|c l IH]; [exact (fun H => H)|].
  cbn [take1]. destruct (same c a); intros H; [right; exact H|].
  destruct H as [H|H]; [left; exact H|right; apply IH; exact H].
Qed.

Lemma track_books : forall f b api s,
  books (track f b api s) =
  match find_by_api (books s) api with Some e => on_list f b (e_id e) (books s) | None => books s end.
Proof. intros. unfold track. destruct (find_by_api (books s) api); reflexivity. Qed.

Lemma track_engine : forall f b api s, cmds (track f b api s) = cmds s /\ vars (track f b api s) = vars s.
Proof. intros. unfold track. destruct (find_by_api (books s) api); split; reflexivity. Qed.

Lemma find_by_api_in : forall ps api e, find_by_api ps api = Some e -> In e ps /\ e_api e = api /\ api <> 0.
Proof.
  intros ps api e H. unfold find_by_api in H. destruct (api =? 0) eqn:E; [discriminate|].
  apply find_some in H. destruct H as [H1 H2]. apply Z.eqb_eq in H2. apply Z.eqb_neq in E. auto.
Qed.

Lemma in_listed : forall ps e, In e ps -> e_api e <> 0 -> In (e_id e) (map fst (listed ps)).
Proof.
  intros ps e H Ha. unfold listed. rewrite map_map. apply (in_map (fun e => fst (pair_of e))).
  apply filter_In. split; [exact H|]. apply negb_true_iff, Z.eqb_neq, Ha.
Qed.

(** A change of one plugin's list on both sides. *)
Lemma agrees_change : forall ps x i b f l',
  agrees ps x -> In i (map fst (on x)) ->
  (forall id b', objs l' id b' = if (i =? id) && eqb b b' then f (objs (force x) id b') else objs (force x) id b') ->
  (forall a, In a l' -> In a (force x) \/ fst (fst a) = i) ->
  agrees (on_list f b i ps) (Sp (on x) (used x) l').
Proof.
  intros ps x i b f l' A Hi Hl Hin. constructor; cbn [on used force].
  - rewrite on_list_pairs. apply (a_on _ _ A).
  - rewrite on_list_ids. apply (a_nodup _ _ A).
  - intros e He. apply (in_map e_id) in He. rewrite on_list_ids in He.
    apply in_map_iff in He. destruct He as [e' [E He']]. rewrite <- E. apply (a_used _ _ A); exact He'.
  - intros a Ha. destruct (Hin a Ha) as [H|H]; [apply (a_force_used _ _ A); exact H|].
    rewrite H. rewrite (a_on _ _ A) in Hi. unfold listed in Hi. rewrite map_map in Hi.
    apply in_map_iff in Hi. destruct Hi as [e [E He]]. apply filter_In in He.
    rewrite <- E. apply (a_used _ _ A). apply He.
  - intros a Ha. destruct (Hin a Ha) as [H|H]; [apply (a_live _ _ A); exact H|]. rewrite H; exact Hi.
  - intros e He. unfold on_list in He. apply in_map_iff in He. destruct He as [e0 [E He0]].
    destruct (a_lists _ _ A e0 He0) as [L1 L2]. rewrite !Hl.
    destruct (e_id e0 =? i) eqn:Q.
    + apply Z.eqb_eq in Q. destruct b; subst e; cbn [e_id e_cmds e_cvars];
        rewrite Q in *; rewrite Z.eqb_refl; cbn [andb eqb]; rewrite L1, L2; auto.
    + subst e. replace (i =? e_id e0) with false by (symmetry; rewrite Z.eqb_sym; exact Q).
      cbn [andb]. auto.
Qed.

Lemma agrees_add : forall s x api b r, agrees (books s) x -> api <> 0 ->
  agrees (books (track (fun l => l ++ [r]) b api s)) (add x api b r).
Proof.
  intros s x api b r A Ha. unfold add. rewrite (who_found _ _ _ A Ha), track_books.
  destruct (find_by_api (books s) api) as [e|] eqn:F; [|exact A].
  apply find_by_api_in in F. destruct F as [F1 [F2 _]]. cbn [option_map].
  apply agrees_change; [exact A| | |].
  - rewrite (a_on _ _ A). apply in_listed; [exact F1|rewrite F2; exact Ha].
  - intros id b'. apply objs_app.
  - intros a H. apply in_app_or in H. destruct H as [H|[H|[]]]; [left; exact H|right; subst a; reflexivity].
Qed.

Lemma agrees_del : forall s x api b r, agrees (books s) x -> api <> 0 ->
  agrees (books (track (remove1 r) b api s)) (del x api b r).
Proof.
  intros s x api b r A Ha. unfold del. rewrite (who_found _ _ _ A Ha), track_books.
  destruct (find_by_api (books s) api) as [e|] eqn:F; [|exact A].
  apply find_by_api_in in F. destruct F as [F1 [F2 _]]. cbn [option_map].
  apply agrees_change; [exact A| | |].
  - rewrite (a_on _ _ A). apply in_listed; [exact F1|rewrite F2; exact Ha].
  - intros id b'. apply objs_take1.
  - intros a H. left. apply (take1_in _ _ _ H).
Qed.

Lemma objs_gone : forall l i id b,
  objs (filter (fun a => negb (fst (fst a) =? i)) l) id b = if i =? id then [] else objs l id b.
Proof.
  intros l i id b. induction l as [|a l IH]; [destruct (i =? id); reflexivity|].
  cbn [filter]. unfold objs in *. destruct (fst (fst a) =? i) eqn:E; cbn [negb filter].
  - rewrite IH. apply Z.eqb_eq in E. rewrite E. destruct (i =? id); reflexivity.
  - destruct ((fst (fst a) =? id) && eqb (snd (fst a)) b) eqn:F; cbn [map]; rewrite IH; [|reflexivity].
    destruct (i =? id) eqn:G; [|reflexivity]. exfalso.
    apply andb_true_iff in F. destruct F as [F _]. apply Z.eqb_eq in F, G. apply Z.eqb_neq in E. lia.
Qed.

Lemma listed_drop : forall id ps, listed (drop id ps) = filter (fun p => negb (fst p =? id)) (listed ps).
Proof.
  intros id ps. unfold listed, drop. induction ps as [|e r IH]; [reflexivity|].
  cbn [filter]. destruct (e_id e =? id) eqn:E; destruct (e_api e =? 0) eqn:F; cbn [negb filter map fst pair_of];
    rewrite ?F, ?E; cbn [negb filter map fst pair_of]; rewrite ?E; cbn [negb]; rewrite IH; reflexivity.
Qed.

Lemma listed_no_api : forall id ps, listed (no_api id ps) = filter (fun p => negb (fst p =? id)) (listed ps).
Proof.
  intros id ps. unfold listed, no_api. induction ps as [|e r IH]; [reflexivity|].
  cbn [filter map]. destruct (e_id e =? id) eqn:E; destruct (e_api e =? 0) eqn:F; cbn [negb filter map fst pair_of e_api];
    rewrite ?F; cbn [negb filter map fst pair_of Z.eqb]; rewrite ?E; cbn [negb]; rewrite IH; reflexivity.
Qed.

Lemma in_gone_on : forall i id (l : list (Z * Z)), In i (map fst l) -> i <> id ->
  In i (map fst (filter (fun p => negb (fst p =? id)) l)).
Proof.
  intros i id l H N. apply in_map_iff in H. destruct H as [p [E H]]. subst i.
  apply in_map. apply filter_In. split; [exact H|]. apply negb_true_iff, Z.eqb_neq, N.
Qed.

Lemma agrees_drop : forall ps x id, agrees ps x -> agrees (drop id ps) (gone id x).
Proof.
  intros ps x id A. constructor; cbn [gone on used force].
  - rewrite listed_drop, (a_on _ _ A). reflexivity.
  - unfold drop. pose proof (a_nodup _ _ A) as N. clear A. induction ps as [|e r IH]; [constructor|].
    cbn [filter map] in *. inversion N as [|? ? N1 N2]; subst. destruct (negb (e_id e =? id)); [|apply IH; exact N2].
    cbn [map]. constructor; [|apply IH; exact N2]. intro H. apply N1.
    apply in_map_iff in H. destruct H as [e' [E H]]. apply filter_In in H. rewrite <- E. apply in_map, H.
  - intros e He. apply filter_In in He. apply (a_used _ _ A), He.
  - intros a Ha. apply filter_In in Ha. apply (a_force_used _ _ A), Ha.
  - intros a Ha. apply filter_In in Ha. destruct Ha as [Ha N]. apply negb_true_iff, Z.eqb_neq in N.
    apply in_gone_on; [apply (a_live _ _ A), Ha|exact N].
  - intros e He. apply filter_In in He. destruct He as [He N]. rewrite !objs_gone.
    apply negb_true_iff in N. rewrite Z.eqb_sym, N. apply (a_lists _ _ A), He.
Qed.

Definition cleared (id : Z) (ps : list entry) : list entry :=
  on_list (fun _ => []) true id (on_list (fun _ => []) false id ps).

Lemma cleared_is : forall id ps,
  cleared id ps = map (fun e => if e_id e =? id then Entry (e_id e) (e_api e) [] [] else e) ps.
Proof.
  intros. unfold cleared, on_list. rewrite map_map. apply map_ext. intro e.
  destruct (e_id e =? id) eqn:E; cbn [e_id e_api e_cvars e_cmds]; rewrite ?E; reflexivity.
Qed.

Lemma drop_cleared : forall id ps, drop id (cleared id ps) = drop id ps.
Proof.
  intros. rewrite cleared_is. unfold drop. induction ps as [|e r IH]; [reflexivity|].
  cbn [map filter]. destruct (e_id e =? id) eqn:E; cbn [e_id]; rewrite ?E; cbn [negb]; rewrite IH; reflexivity.
Qed.

Lemma agrees_refused : forall ps x id, agrees ps x -> agrees (no_api id (cleared id ps)) (gone id x).
Proof.
  intros ps x id A. rewrite cleared_is. unfold no_api. rewrite map_map.
  assert (I : map e_id (map (fun e => let y := if e_id e =? id then Entry (e_id e) (e_api e) [] [] else e in
             if e_id y =? id then Entry (e_id y) 0 (e_cvars y) (e_cmds y) else y) ps) = map e_id ps).
  { rewrite map_map. apply map_ext. intro e. cbv zeta. destruct (e_id e =? id) eqn:E; cbn [e_id]; rewrite ?E; reflexivity. }
  constructor; cbn [gone on used force].
  - pose proof (listed_no_api id (cleared id ps)) as L. rewrite cleared_is in L. unfold no_api in L.
    rewrite map_map in L. rewrite L, <- cleared_is. unfold cleared. rewrite !on_list_pairs, (a_on _ _ A). reflexivity.
  - cbv zeta in I. rewrite I. apply (a_nodup _ _ A).
  - intros e He. apply (in_map e_id) in He. cbv zeta in I. rewrite I in He.
    apply in_map_iff in He. destruct He as [e' [E He']]. rewrite <- E. apply (a_used _ _ A), He'.
  - intros a Ha. apply filter_In in Ha. apply (a_force_used _ _ A), Ha.
  - intros a Ha. apply filter_In in Ha. destruct Ha as [Ha N]. apply negb_true_iff, Z.eqb_neq in N.
    apply in_gone_on; [apply (a_live _ _ A), Ha|exact N].
  - intros e He. apply in_map_iff in He. destruct He as [e0 [E He0]]. rewrite !objs_gone.
    destruct (e_id e0 =? id) eqn:Q.
    + cbn [e_id] in E. rewrite Q in E. subst e. cbn [e_id e_cmds e_cvars]. rewrite Z.eqb_sym, Q. auto.
    + rewrite Q in E. subst e. rewrite Z.eqb_sym, Q. apply (a_lists _ _ A), He0.
Qed.

Lemma filter_all : forall (A : Type) (f : A -> bool) l, (forall a, In a l -> f a = true) -> filter f l = l.
Proof.
  intros A f l. induction l as [|a l IH]; intros H; [reflexivity|]. cbn [filter].
  rewrite (H a (or_introl eq_refl)). f_equal. apply IH. intros b Hb. apply H. right; exact Hb.
Qed.

Lemma gone_absent : forall ps x id, agrees ps x -> ~ In id (map fst (on x)) -> gone id x = x.
Proof.
  intros ps x id A N. destruct x as [o u l]. unfold gone; cbn [on used force] in *. f_equal.
  - apply filter_all. intros p Hp. apply negb_true_iff, Z.eqb_neq. intro E. apply N. rewrite <- E. apply in_map, Hp.
  - apply filter_all. intros a Ha. apply negb_true_iff, Z.eqb_neq. intro E. apply N.
    rewrite <- E. apply (a_live _ _ A a Ha).
Qed.

Lemma absent_id : forall ps x id, agrees ps x -> find_by_id ps id = None -> ~ In id (map fst (on x)).
Proof.
  intros ps x id A F H. rewrite (a_on _ _ A) in H. unfold listed in H. rewrite map_map in H.
  apply in_map_iff in H. destruct H as [e [E H]]. apply filter_In in H. destruct H as [H _].
  pose proof (find_none _ _ F e H) as Q. cbn in Q. apply Z.eqb_neq in Q. apply Q. exact E.
Qed.

Lemma agrees_loaded : forall ps x id api, agrees ps x -> ~ In id (used x) -> api <> 0 ->
  agrees (ps ++ [Entry id api [] []]) (Sp (on x ++ [(id, api)]) (id :: used x) (force x)).
Proof.
  intros ps x id api A N Ha. constructor; cbn [on used force].
  - unfold listed. rewrite filter_app, map_app. fold (listed ps). rewrite (a_on _ _ A). cbn [filter e_api].
    replace (api =? 0) with false by (symmetry; apply Z.eqb_neq; lia). reflexivity.
  - rewrite map_app. cbn [map e_id].
    pose proof (a_nodup _ _ A) as ND. pose proof (a_used _ _ A) as U. clear A.
    induction ps as [|e r IH]; cbn [map app]; [constructor; [intros []|constructor]|].
    inversion ND as [|? ? N1 N2]; subst. constructor.
    + intro H. apply in_app_or in H. destruct H as [H|[H|[]]]; [exact (N1 H)|].
      apply N. rewrite H. apply U. left; reflexivity.
    + apply IH; [exact N2|intros e' He'; apply U; right; exact He'].
  - intros e He. apply in_app_or in He. destruct He as [He|[He|[]]]; [right; apply (a_used _ _ A), He|left; subst e; reflexivity].
  - intros a H. right. apply (a_force_used _ _ A), H.
  - intros a H. rewrite map_app. apply in_or_app. left. apply (a_live _ _ A), H.
  - intros e He. apply in_app_or in He. destruct He as [He|[He|[]]]; [apply (a_lists _ _ A), He|].
    subst e. cbn [e_id e_cmds e_cvars].
    assert (Z0 : forall b, objs (force x) id b = []).
    { intro b. unfold objs.
      assert (Q : forall l : list reg, (forall a, In a l -> fst (fst a) <> id) ->
        filter (fun a => (fst (fst a) =? id) && eqb (snd (fst a)) b) l = []).
      { intros l. induction l as [|a l IHl]; intros H; [reflexivity|]. cbn [filter].
        replace (fst (fst a) =? id) with false by (symmetry; apply Z.eqb_neq, H; left; reflexivity).
        cbn [andb]. apply IHl. intros c Hc. apply H. right; exact Hc. }
      rewrite Q; [reflexivity|]. intros a H E. apply N. rewrite <- E. apply (a_force_used _ _ A), H. }
    rewrite !Z0. auto.
Qed.

Section Console.
Variables hc hv : Z -> Z.
Notation step := (step hc hv).
Notation run := (run hc hv).
Notation unreg_all := (unreg_all hc hv).

Lemma each_cmd : forall l s s', each (prov_unreg_cmd hc) s l = Some s' ->
  books s' = books s /\ vars s' = vars s /\
  forall k, cmds s' k = if existsb (fun r => hc r =? k) l
                        then option_map (fun c => Cmd (Z.lor (c_flags c) 2) false) (cmds s k) else cmds s k.
Proof.
  induction l as [|r l IH]; intros s s' H; cbn [each] in H.
  - inversion H; subst. auto.
  - unfold prov_unreg_cmd at 1 in H. destruct (cmds s (hc r)) as [c|] eqn:C; [|discriminate].
    apply IH in H. cbn [books vars cmds] in H. destruct H as [H1 [H2 H3]].
    split; [exact H1|]. split; [exact H2|]. intro k. rewrite H3. cbn [existsb]. unfold set.
    rewrite (Z.eqb_sym k). destruct (hc r =? k) eqn:E; [|reflexivity].
    apply Z.eqb_eq in E. subst k. rewrite C. cbn [orb option_map c_flags].
    destruct (existsb (fun r0 => hc r0 =? hc r) l); [|reflexivity].
    rewrite <- Z.lor_assoc. reflexivity.
Qed.

Lemma each_var : forall l s s', each (prov_unreg_var hv) s l = Some s' ->
  books s' = books s /\ cmds s' = cmds s /\
  forall k, vars s' k = if existsb (fun r => hv r =? k) l then option_map (fun _ => Var false false) (vars s k) else vars s k.
Proof.
  induction l as [|r l IH]; intros s s' H; cbn [each] in H.
  - inversion H; subst. auto.
  - unfold prov_unreg_var at 1 in H. destruct (vars s (hv r)) as [c|] eqn:C; [|discriminate].
    apply IH in H. cbn [books vars cmds] in H. destruct H as [H1 [H2 H3]].
    split; [exact H1|]. split; [exact H2|]. intro k. rewrite H3. cbn [existsb]. unfold set.
    rewrite (Z.eqb_sym k). destruct (hv r =? k) eqn:E; [|reflexivity].
    apply Z.eqb_eq in E. subst k. rewrite C. cbn [orb option_map].
    destruct (existsb (fun r0 => hv r0 =? hv r) l); reflexivity.
Qed.

Lemma unreg_all_does : forall s e s', unreg_all s e = Some s' ->
  books s' = cleared (e_id e) (books s) /\
  (forall k, cmds s' k = if existsb (fun r => hc r =? k) (e_cmds e)
                        then option_map (fun c => Cmd (Z.lor (c_flags c) 2) false) (cmds s k) else cmds s k) /\
  (forall k, vars s' k = if existsb (fun r => hv r =? k) (e_cvars e)
                        then option_map (fun _ => Var false false) (vars s k) else vars s k).
Proof.
  intros s e s' H. unfold S2cModel.unreg_all in H.
  destruct (each (prov_unreg_var hv) s (e_cvars e)) as [s1|] eqn:E1; [|discriminate].
  cbv zeta in H.
  destruct (each (prov_unreg_cmd hc) (set_books s1 (on_list (fun _ => []) false (e_id e) (books s1))) (e_cmds e)) as [s3|] eqn:E3; [|discriminate].
  inversion H; subst s'; clear H. apply each_var in E1. apply each_cmd in E3.
  destruct E1 as [B1 [C1 V1]], E3 as [B3 [V3 C3]]. unfold set_books in *; cbn [books cmds vars] in *.
  split; [rewrite B3, B1; reflexivity|]. split; intro k; [rewrite C3, C1; reflexivity|rewrite V3; apply V1].
Qed.

Lemma existsb_objs : forall (g : Z -> bool) l id b,
  existsb g (objs l id b) = existsb (fun a : reg => (fst (fst a) =? id) && eqb (snd (fst a)) b && g (snd a)) l.
Proof.
  intros g l id b. unfold objs. induction l as [|a l IH]; [reflexivity|]. cbn [filter existsb].
  destruct ((fst (fst a) =? id) && eqb (snd (fst a)) b); cbn [map existsb andb orb]; rewrite IH; reflexivity.
Qed.

Lemma existsb_same : forall (A : Type) (f g : A -> bool) l, (forall a, f a = g a) -> existsb f l = existsb g l.
Proof. intros A f g l H. induction l as [|a l IH]; [reflexivity|]. cbn [existsb]. rewrite H, IH. reflexivity. Qed.

Lemma existsb_absent : forall x id (g : reg -> bool), (forall a, In a (force x) -> fst (fst a) <> id) ->
  (forall a, g a = true -> fst (fst a) = id) -> existsb g (force x) = false.
Proof.
  intros x id g H G. induction (force x) as [|a l IH]; [reflexivity|]. cbn [existsb].
  rewrite IH by (intros b Hb; apply H; right; exact Hb). rewrite orb_false_r.
  destruct (g a) eqn:E; [|reflexivity]. exfalso. apply (H a (or_introl eq_refl)), G, E.
Qed.

Definition cmd_next (t : touch) (c : option cmd) : option cmd :=
  match t, c with
  | Off, Some c => Some (Cmd (Z.lor (c_flags c) 2) false)
  | Shown, Some c => Some (Cmd (Z.ldiff (c_flags c) 2) (c_calls c))
  | Calls fl, None => Some (Cmd fl true)
  | Calls _, Some c => Some (Cmd (c_flags c) true)
  | _, _ => c
  end.
Definition varn (x : sp) (k : Z) (o : op) (v : option var) : option var :=
  match o with
  | EVar j => if j =? k then Some (Var true true) else v
  | UnregVar _ r => if hv r =? k then option_map (fun _ => Var false false) v else v
  | Refused id | Unload id =>
      if existsb (fun a => (fst (fst a) =? id) && negb (snd (fst a)) && (hv (snd a) =? k)) (force x)
      then option_map (fun _ => Var false false) v else v
  | _ => v
  end.

Lemma land2 : forall f, (Z.land f 2 =? 0) = negb (Z.testbit f 1).
Proof.
  intro f. destruct (Z.testbit f 1) eqn:T; cbn [negb].
  - apply Z.eqb_neq. intro E. assert (B : Z.testbit (Z.land f 2) 1 = true) by (rewrite Z.land_spec, T; reflexivity).
    rewrite E in B. discriminate B.
  - apply Z.eqb_eq. apply Z.bits_inj'. intros n Hn. rewrite Z.land_spec, Z.bits_0.
    change 2 with (2 ^ 1). rewrite Z.pow2_bits_eqb by lia. destruct (1 =? n) eqn:E; [|apply andb_false_r].
    apply Z.eqb_eq in E. subst n. rewrite T. reflexivity.
Qed.

Lemma ldiff2_id : forall f, Z.testbit f 1 = false -> Z.ldiff f 2 = f.
Proof.
  intros f T. apply Z.bits_inj'. intros n Hn. rewrite Z.ldiff_spec.
  change 2 with (2 ^ 1). rewrite Z.pow2_bits_eqb by lia. destruct (1 =? n) eqn:E; [|rewrite andb_true_r; reflexivity].
  apply Z.eqb_eq in E. subst n. rewrite T. reflexivity.
Qed.

Definition step_ok (x : sp) (o : op) : Prop :=
  match o with
  | Loaded id api => ~ In id (used x) /\ api <> 0
  | RegCmd api _ | RegVar api _ | UnregCmd api _ | UnregVar api _ => api <> 0
  | _ => True
  end.

(** One call: the books follow the record, and every command and variable changes
    as told. *)
Lemma step_does : forall s x o s', agrees (books s) x -> step_ok x o -> step s o = Some s' ->
  agrees (books s') (next x o) /\
  (forall k, cmds s' k = cmd_next (touch_cmd hc x k o) (cmds s k)) /\
  (forall k, vars s' k = varn x k o (vars s k)).
Proof.
  intros s x o s' A OK H. destruct o as [k0 fl|k0|id api|api r|api r|api r|api r|id|id]; cbn [S2cModel.step step_ok next touch_cmd varn] in *.
  - inversion H; subst s'; clear H. cbn [engine_cmd books cmds vars]. split; [exact A|]. split; [|reflexivity].
    intro k. unfold set. rewrite (Z.eqb_sym k). destruct (k0 =? k) eqn:E.
    + apply Z.eqb_eq in E. subst k0. cbn [cmd_next]. destruct (cmds s k); reflexivity.
    + destruct (cmds s k); reflexivity.
  - inversion H; subst s'; clear H. cbn [engine_var books cmds vars]. split; [exact A|]. split; intro k.
    + destruct (cmds s k); reflexivity.
    + unfold set. rewrite (Z.eqb_sym k). reflexivity.
  - inversion H; subst s'; clear H. cbn [set_books books cmds vars]. destruct OK as [O1 O2].
    split; [apply agrees_loaded; assumption|]. split; intro k; [destruct (cmds s k); reflexivity|reflexivity].
  - destruct (track_engine (fun l => l ++ [r]) true api s) as [TC TV].
    unfold prov_reg_cmd in H. rewrite TC in H. destruct (cmds s (hc r)) as [c|] eqn:C; [|discriminate].
    change FCVAR_DEVELOPMENTONLY with 2 in H. rewrite land2, negb_involutive in H.
    assert (A' := agrees_add s x api true r A OK).
    destruct (Z.testbit (c_flags c) 1) eqn:T; inversion H; subst s'; clear H; cbn [books cmds vars]; rewrite ?TC, ?TV;
      (split; [exact A'|]); (split; [|reflexivity]); intro k.
    + unfold set. rewrite (Z.eqb_sym k). destruct (hc r =? k) eqn:E; [|destruct (cmds s k); reflexivity].
      apply Z.eqb_eq in E. subst k. rewrite C. reflexivity.
    + destruct (hc r =? k) eqn:E; [|destruct (cmds s k); reflexivity].
      apply Z.eqb_eq in E. subst k. rewrite C. cbn [cmd_next]. rewrite ldiff2_id by exact T. destruct c; reflexivity.
  - destruct (track_engine (fun l => l ++ [r]) false api s) as [TC TV].
    unfold prov_reg_var in H. inversion H; subst s'; clear H. rewrite TC, TV.
    split; [apply agrees_add; assumption|]. split; intro k; [destruct (cmds s k); reflexivity|reflexivity].
  - destruct (track_engine (remove1 r) true api s) as [TC TV].
    unfold prov_unreg_cmd in H. rewrite TC in H. destruct (cmds s (hc r)) as [c|] eqn:C; [|discriminate].
    inversion H; subst s'; clear H. cbn [books cmds vars]. rewrite TV.
    split; [apply agrees_del; assumption|]. split; [|reflexivity]. intro k. unfold set. rewrite (Z.eqb_sym k).
    destruct (hc r =? k) eqn:E; [|destruct (cmds s k); reflexivity].
    apply Z.eqb_eq in E. subst k. rewrite C. reflexivity.
  - destruct (track_engine (remove1 r) false api s) as [TC TV].
    unfold prov_unreg_var in H. rewrite TV in H. destruct (vars s (hv r)) as [c|] eqn:C; [|discriminate].
    inversion H; subst s'; clear H. cbn [books cmds vars]. rewrite TC.
    split; [apply agrees_del; assumption|]. split; intro k; [destruct (cmds s k); reflexivity|].
    unfold set. rewrite (Z.eqb_sym k).
    destruct (hv r =? k) eqn:E; [|reflexivity]. apply Z.eqb_eq in E. subst k. rewrite C. reflexivity.
  - destruct (find_by_id (books s) id) as [e|] eqn:F.
    + destruct (unreg_all s e) as [s1|] eqn:U; [|discriminate]. inversion H; subst s'; clear H.
      apply unreg_all_does in U. destruct U as [B [C V]].
      apply find_some in F. destruct F as [F1 F2]. apply Z.eqb_eq in F2.
      destruct (a_lists _ _ A e F1) as [L1 L2]. rewrite L1, F2 in C. rewrite L2, F2 in V. rewrite F2 in B.
      cbn [set_books books cmds vars]. split; [rewrite B; apply agrees_refused, A|]. split; intro k.
      * rewrite C, existsb_objs.
        rewrite (existsb_same _ _ (fun a : reg => (fst (fst a) =? id) && snd (fst a) && (hc (snd a) =? k)))
          by (intro a; destruct (snd (fst a)); reflexivity).
        unfold reg; match goal with |- context [existsb ?g ?l] => destruct (existsb g l) end; destruct (cmds s k); reflexivity.
      * rewrite V, existsb_objs.
        rewrite (existsb_same _ _ (fun a : reg => (fst (fst a) =? id) && negb (snd (fst a)) && (hv (snd a) =? k)))
          by (intro a; destruct (snd (fst a)); reflexivity).
        reflexivity.
    + inversion H; subst s'; clear H. pose proof (absent_id _ _ _ A F) as N.
      assert (NF : forall a, In a (force x) -> fst (fst a) <> id).
      { intros a Ha E. apply N. rewrite <- E. apply (a_live _ _ A), Ha. }
      rewrite (gone_absent _ _ _ A N). split; [exact A|]. split; intro k; rewrite (existsb_absent x id); auto;
        try (destruct (cmds s k); reflexivity);
        intros a Ha; rewrite !andb_true_iff in Ha; apply Z.eqb_eq, Ha.
  - destruct (find_by_id (books s) id) as [e|] eqn:F.
    + apply find_some in F. destruct F as [F1 F2]. apply Z.eqb_eq in F2.
      destruct (e_api e =? 0) eqn:Z0.
      * inversion H; subst s'; clear H. apply Z.eqb_eq in Z0.
        assert (N : ~ In id (map fst (on x))).
        { intro Hin. rewrite (a_on _ _ A) in Hin. unfold listed in Hin. rewrite map_map in Hin.
          apply in_map_iff in Hin. destruct Hin as [e' [E He']]. apply filter_In in He'. destruct He' as [He' Q].
          cbn in E. assert (e' = e).
          { pose proof (a_nodup _ _ A) as ND. clear - ND He' F1 E F2. rewrite <- F2 in E.
            induction (books s) as [|y l IH]; [destruct F1|]. cbn [map] in ND. inversion ND as [|? ? N1 N2]; subst.
            destruct He' as [He'|He'], F1 as [F1|F1].
            - congruence.
            - exfalso. subst y. apply N1. rewrite E. apply in_map, F1.
            - exfalso. subst y. apply N1. rewrite <- E. apply in_map, He'.
            - apply IH; assumption. }
          subst e'. rewrite Z0 in Q. discriminate Q. }
        assert (NF : forall a, In a (force x) -> fst (fst a) <> id).
        { intros a Ha E. apply N. rewrite <- E. apply (a_live _ _ A), Ha. }
        cbn [set_books books cmds vars]. split; [apply agrees_drop, A|]. split; intro k; rewrite (existsb_absent x id); auto;
          try (destruct (cmds s k); reflexivity);
          intros a Ha; rewrite !andb_true_iff in Ha; apply Z.eqb_eq, Ha.
      * destruct (unreg_all s e) as [s1|] eqn:U; [|discriminate]. inversion H; subst s'; clear H.
        apply unreg_all_does in U. destruct U as [B [C V]].
        destruct (a_lists _ _ A e F1) as [L1 L2]. rewrite L1, F2 in C. rewrite L2, F2 in V. rewrite F2 in B.
        cbn [set_books books cmds vars]. split; [rewrite B, drop_cleared; apply agrees_drop, A|]. split; intro k.
        -- rewrite C, existsb_objs.
           rewrite (existsb_same _ _ (fun a : reg => (fst (fst a) =? id) && snd (fst a) && (hc (snd a) =? k)))
             by (intro a; destruct (snd (fst a)); reflexivity).
           unfold reg; match goal with |- context [existsb ?g ?l] => destruct (existsb g l) end; destruct (cmds s k); reflexivity.
        -- rewrite V, existsb_objs.
           rewrite (existsb_same _ _ (fun a : reg => (fst (fst a) =? id) && negb (snd (fst a)) && (hv (snd a) =? k)))
             by (intro a; destruct (snd (fst a)); reflexivity).
           reflexivity.
    + inversion H; subst s'; clear H. pose proof (absent_id _ _ _ A F) as N.
      assert (NF : forall a, In a (force x) -> fst (fst a) <> id).
      { intros a Ha E. apply N. rewrite <- E. apply (a_live _ _ A), Ha. }
      rewrite (gone_absent _ _ _ A N). split; [exact A|]. split; intro k; rewrite (existsb_absent x id); auto;
        try (destruct (cmds s k); reflexivity);
        intros a Ha; rewrite !andb_true_iff in Ha; apply Z.eqb_eq, Ha.
Qed.

Lemma lawful_cons : forall x o os, lawful x (o :: os) -> step_ok x o /\ lawful (next x o) os.
Proof. intros x o os H. cbn [lawful] in H. destruct o; exact H. Qed.

Lemma run_agrees : forall os s x s', agrees (books s) x -> lawful x os -> run s os = Some s' ->
  agrees (books s') (fold_left next os x).
Proof.
  induction os as [|o os IH]; intros s x s' A L H; cbn [S2cModel.run fold_left] in *.
  - inversion H; subst; exact A.
  - destruct (step s o) as [s1|] eqn:S; [|discriminate]. apply lawful_cons in L. destruct L as [L1 L2].
    destruct (step_does _ _ _ _ A L1 S) as [A1 _]. apply (IH _ _ _ A1 L2 H).
Qed.

Lemma start_agrees : agrees [] (Sp [] [] []).
Proof. constructor; cbn; try contradiction; try reflexivity; constructor. Qed.

Lemma look_off : forall f b, Look false false (others (look0 f b)) = look0 (Z.lor f 2) false.
Proof.
  intros f b. unfold look0; cbn [others]. f_equal.
  - rewrite Z.lor_spec. change (Z.testbit 2 1) with true. rewrite orb_true_r. reflexivity.
  - apply Z.bits_inj'. intros n Hn. rewrite !Z.ldiff_spec, Z.lor_spec.
    destruct (Z.testbit f n), (Z.testbit 2 n); reflexivity.
Qed.
Lemma look_on : forall f b, Look true b (others (look0 f b)) = look0 (Z.ldiff f 2) b.
Proof.
  intros f b. unfold look0; cbn [others]. f_equal.
  - rewrite Z.ldiff_spec. change (Z.testbit 2 1) with true. rewrite andb_false_r. reflexivity.
  - apply Z.bits_inj'. intros n Hn. rewrite !Z.ldiff_spec.
    destruct (Z.testbit f n), (Z.testbit 2 n); reflexivity.
Qed.

Lemma seen_next : forall t c,
  option_map (fun c => look0 (c_flags c) (c_calls c)) (cmd_next t c) =
  seen (option_map (fun c => look0 (c_flags c) (c_calls c)) c) t.
Proof.
  intros t c. destruct t, c as [[f b]|]; cbn [cmd_next option_map seen c_flags c_calls]; try reflexivity.
  - rewrite look_off. reflexivity.
  - rewrite <- look_on. reflexivity.
Qed.

Lemma run_cmd : forall os s x s' k, agrees (books s) x -> lawful x os -> run s os = Some s' ->
  shown_cmd s' k = cmd_look hc x k (shown_cmd s k) os.
Proof.
  induction os as [|o os IH]; intros s x s' k A L H; cbn [S2cModel.run cmd_look] in *.
  - inversion H; subst; reflexivity.
  - destruct (step s o) as [s1|] eqn:S; [|discriminate]. apply lawful_cons in L. destruct L as [L1 L2].
    destruct (step_does _ _ _ _ A L1 S) as [A1 [C _]]. rewrite (IH _ _ _ k A1 L2 H). f_equal.
    unfold shown_cmd. rewrite C. apply seen_next.
Qed.

Lemma var_shown_next : forall x k o v l,
  option_map (fun v => match v_valid v, v_calls v with true, true => Some true | false, false => Some false | _, _ => None end) v = option_map (@Some bool) l ->
  option_map (fun v => match v_valid v, v_calls v with true, true => Some true | false, false => Some false | _, _ => None end) (varn x k o v)
  = option_map (@Some bool) (var_next hv x k l o).
Proof.
  intros x k o v l H.
  assert (Q : option_map (fun v => match v_valid v, v_calls v with true, true => Some true | false, false => Some false | _, _ => None end) (option_map (fun _ => Var false false) v)
              = option_map (@Some bool) (option_map (fun _ => false) l)).
  { destruct v, l; cbn [option_map] in *; try discriminate; reflexivity. }
  destruct o; cbn [varn var_next]; try exact H.
  - destruct (k0 =? k); [reflexivity|exact H].
  - destruct (hv r =? k); [exact Q|exact H].
  - unfold reg; match goal with |- context [existsb ?g ?l] => destruct (existsb g l) end; [exact Q|exact H].
  - unfold reg; match goal with |- context [existsb ?g ?l] => destruct (existsb g l) end; [exact Q|exact H].
Qed.

Lemma run_var : forall os s x s' k l, agrees (books s) x -> lawful x os -> run s os = Some s' ->
  shown_var s k = option_map (@Some bool) l ->
  shown_var s' k = option_map (@Some bool) (var_look hv x k l os).
Proof.
  induction os as [|o os IH]; intros s x s' k l A L H E; cbn [S2cModel.run var_look] in *.
  - inversion H; subst; exact E.
  - destruct (step s o) as [s1|] eqn:S; [|discriminate]. apply lawful_cons in L. destruct L as [L1 L2].
    destruct (step_does _ _ _ _ A L1 S) as [A1 [_ V]]. apply (IH _ _ _ k _ A1 L2 H).
    unfold shown_var in *. rewrite V. apply var_shown_next. exact E.
Qed.

Lemma each_cmd_ok : forall l s, (forall r, In r l -> cmds s (hc r) <> None) -> each (prov_unreg_cmd hc) s l <> None.
Proof.
  induction l as [|r l IH]; intros s H; cbn [each]; [discriminate|].
  unfold prov_unreg_cmd at 1. destruct (cmds s (hc r)) as [c|] eqn:C; [|exfalso; exact (H r (or_introl eq_refl) C)].
  apply IH. intros q Hq. cbn [cmds]. unfold set. destruct (hc q =? hc r); [discriminate|].
  apply H. right; exact Hq.
Qed.
Lemma each_var_ok : forall l s, (forall r, In r l -> vars s (hv r) <> None) -> each (prov_unreg_var hv) s l <> None.
Proof.
  induction l as [|r l IH]; intros s H; cbn [each]; [discriminate|].
  unfold prov_unreg_var at 1. destruct (vars s (hv r)) as [c|] eqn:C; [|exfalso; exact (H r (or_introl eq_refl) C)].
  apply IH. intros q Hq. cbn [vars]. unfold set. destruct (hv q =? hv r); [discriminate|].
  apply H. right; exact Hq.
Qed.

Definition known (s : st) (x : sp) : Prop :=
  forall i b r, In (i, b, r) (force x) -> if b then cmds s (hc r) <> None else vars s (hv r) <> None.

Lemma objs_in : forall l id b r, In r (objs l id b) -> In (id, b, r) l.
Proof.
  intros l id b r H. unfold objs in H. apply in_map_iff in H. destruct H as [[[i b'] r'] [E H]]. cbn in E. subst r'.
  apply filter_In in H. destruct H as [H Q]. cbn [fst snd] in Q. apply andb_true_iff in Q. destruct Q as [Q1 Q2].
  apply Z.eqb_eq in Q1. apply eqb_prop in Q2. subst. exact H.
Qed.

Lemma unreg_all_ok : forall s x e, agrees (books s) x -> known s x -> In e (books s) -> unreg_all s e <> None.
Proof.
  intros s x e A K He. destruct (a_lists _ _ A e He) as [L1 L2]. unfold S2cModel.unreg_all.
  destruct (each (prov_unreg_var hv) s (e_cvars e)) as [s1|] eqn:E1.
  - cbv zeta.
    destruct (each (prov_unreg_cmd hc) (set_books s1 (on_list (fun _ => []) false (e_id e) (books s1))) (e_cmds e)) as [s3|] eqn:E3; [discriminate|].
    exfalso. revert E3. apply each_cmd_ok. intros r Hr. cbn [set_books cmds].
    apply each_var in E1. destruct E1 as [_ [C1 _]]. rewrite C1. rewrite L1 in Hr. apply objs_in in Hr.
    exact (K _ true r Hr).
  - exfalso. revert E1. apply each_var_ok. intros r Hr. rewrite L2 in Hr. apply objs_in in Hr.
    exact (K _ false r Hr).
Qed.

Lemma step_ok_runs : forall s x o, agrees (books s) x -> known s x ->
  match o with
  | RegCmd _ c | UnregCmd _ c => cmds s (hc c) <> None
  | RegVar _ c | UnregVar _ c => vars s (hv c) <> None
  | _ => True
  end -> step s o <> None.
Proof.
  intros s x o A K H. destruct o; cbn [S2cModel.step]; try discriminate.
  - unfold prov_reg_cmd. rewrite (proj1 (track_engine _ _ _ s)). destruct (cmds s (hc r)); [discriminate|contradiction].
  - unfold prov_unreg_cmd. rewrite (proj1 (track_engine _ _ _ s)). destruct (cmds s (hc r)); [discriminate|contradiction].
  - unfold prov_unreg_var. rewrite (proj2 (track_engine _ _ _ s)). destruct (vars s (hv r)); [discriminate|contradiction].
  - destruct (find_by_id (books s) id) as [e|] eqn:F; [|discriminate]. apply find_some in F.
    pose proof (unreg_all_ok s x e A K (proj1 F)) as U. destruct (unreg_all s e); [discriminate|contradiction].
  - destruct (find_by_id (books s) id) as [e|] eqn:F; [|discriminate]. destruct (e_api e =? 0); [discriminate|]. apply find_some in F.
    pose proof (unreg_all_ok s x e A K (proj1 F)) as U. destruct (unreg_all s e); [discriminate|contradiction].
Qed.

Lemma cmd_next_some : forall t c, c <> None -> cmd_next t c <> None.
Proof. intros t [c|] H; [|contradiction]. destruct t; discriminate. Qed.
Lemma varn_some : forall x k o v, v <> None -> varn x k o v <> None.
Proof.
  intros x k o [v|] H; [|contradiction]. destruct o; cbn [varn option_map]; try discriminate;
    match goal with |- (if ?b then _ else _) <> None => destruct b end; discriminate.
Qed.

Lemma force_next : forall x o a, In a (force (next x o)) ->
  In a (force x) \/ match o with RegCmd _ r => snd (fst a) = true /\ snd a = r
                                | RegVar _ r => snd (fst a) = false /\ snd a = r | _ => False end.
Proof.
  intros x o a H. destruct o; cbn [next] in H; try (left; exact H); unfold add, del in H.
  - destruct (who x api); [|left; exact H]. cbn [force] in H. apply in_app_or in H.
    destruct H as [H|[H|[]]]; [left; exact H|right; subst a; split; reflexivity].
  - destruct (who x api); [|left; exact H]. cbn [force] in H. apply in_app_or in H.
    destruct H as [H|[H|[]]]; [left; exact H|right; subst a; split; reflexivity].
  - destruct (who x api); [|left; exact H]. left. apply (take1_in _ _ _ H).
  - destruct (who x api); [|left; exact H]. left. apply (take1_in _ _ _ H).
  - left. cbn [gone force] in H. apply filter_In in H. apply H.
  - left. cbn [gone force] in H. apply filter_In in H. apply H.
Qed.

Lemma run_named : forall os s x mc mv, agrees (books s) x -> known s x -> lawful x os -> named hc hv mc mv os ->
  (forall k, In k mc -> cmds s k <> None) -> (forall k, In k mv -> vars s k <> None) -> run s os <> None.
Proof.
  induction os as [|o os IH]; intros s x mc mv A K L N HC HV; cbn [S2cModel.run]; [discriminate|].
  apply lawful_cons in L. destruct L as [L1 L2]. cbn [named] in N. destruct N as [N1 N2].
  assert (P : match o with
  | RegCmd _ c | UnregCmd _ c => cmds s (hc c) <> None
  | RegVar _ c | UnregVar _ c => vars s (hv c) <> None
  | _ => True
  end) by (destruct o; try exact I; auto).
  pose proof (step_ok_runs s x o A K P) as R. destruct (step s o) as [s1|] eqn:S; [|contradiction].
  destruct (step_does _ _ _ _ A L1 S) as [A1 [C V]]. refine (IH s1 _ _ _ A1 _ L2 N2 _ _).
  - intros i b r H. apply force_next in H. rewrite C, V.
    destruct H as [H|H].
    + specialize (K i b r H). destruct b; [apply cmd_next_some|apply varn_some]; exact K.
    + destruct o; try contradiction; cbn [fst snd] in H; destruct H as [H1 H2]; subst b r;
        [apply cmd_next_some|apply varn_some]; exact P.
  - intros k Hk. rewrite C. destruct o; try (apply cmd_next_some, HC, Hk).
    destruct Hk as [Hk|Hk]; [|apply cmd_next_some, HC, Hk]. subst k0. cbn [touch_cmd]. rewrite Z.eqb_refl.
    destruct (cmds s k); discriminate.
  - intros k Hk. rewrite V. destruct o; try (apply varn_some, HV, Hk).
    destruct Hk as [Hk|Hk]; [|apply varn_some, HV, Hk]. subst k0. cbn [varn]. rewrite Z.eqb_refl. discriminate.
Qed.
End Console.

(** The variables of Metamod:Source itself. *)
Lemma delete_all : forall m l, NoDup m -> (forall a, In a m <-> In a l) -> NoDup l -> delete_each l m = Some [].
Proof.
  assert (RI : forall a l, NoDup l -> forall b, In b (remove1 a l) <-> In b l /\ b <> a).
  { intros a l. induction l as [|c l IH]; intros N b; cbn [remove1].
    - split; [intros []|intros [[] _]].
    - inversion N as [|? ? N1 N2]; subst. destruct (c =? a) eqn:E.
      + apply Z.eqb_eq in E. subst c. split.
        * intro H. split; [right; exact H|]. intro Q; subst b; exact (N1 H).
        * intros [[H|H] Q]; [congruence|exact H].
      + apply Z.eqb_neq in E. cbn [In]. rewrite (IH N2 b). split.
        * intros [H|[H1 H2]]; [subst b; auto|auto].
        * intros [[H|H] Q]; auto. }
  assert (RN : forall a l, NoDup l -> NoDup (remove1 a l)).
  { intros a l. induction l as [|c l IH]; intros N; cbn [remove1]; [constructor|].
    inversion N as [|? ? N1 N2]; subst. destruct (c =? a); [exact N2|]. constructor; [|apply IH, N2].
    intro H. apply (RI a l N2) in H. apply N1, H. }
  induction m as [|a m IH]; intros l Nm H Nl; cbn [delete_each].
  - destruct l as [|b l]; [reflexivity|]. destruct (proj2 (H b) (or_introl eq_refl)).
  - inversion Nm as [|? ? N1 N2]; subst.
    assert (E : existsb (Z.eqb a) l = true).
    { apply existsb_exists. exists a. split; [apply H; left; reflexivity|apply Z.eqb_refl]. }
    rewrite E. apply IH; [exact N2| |apply RN, Nl]. intro b. rewrite (RI a l Nl b). split.
    + intro Hb. split; [apply H; right; exact Hb|]. intro Q; subst b; exact (N1 Hb).
    + intros [Hb Q]. apply H in Hb. destruct Hb as [Hb|Hb]; [congruence|exact Hb].
Qed.
