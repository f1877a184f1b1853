(** C88: who is told that a console command or variable goes away, and how. *)
From Coq Require Import List ZArith Bool Lia.
From Verif Require Import CmdModel UnlModel UnlSpec.
Import ListNotations.
Local Open Scope Z_scope.

Lemma times_app : forall a t u, times a (t ++ u) = (times a t + times a u)%nat.
Proof. intros a t u. induction t as [|b t IH]; [reflexivity|]. cbn [app times]. rewrite IH. lia. Qed.

Lemma times_told : forall l h id k c h' id' k' c' es,
  times (Told l h id k c) (map (fun x => Told x h' id' k' c') es) =
  if (match h, h' with OldWay, OldWay | NewWay, NewWay => true | _, _ => false end) && (id =? id') && eqb k k' && (c =? c')
  then occ l es else O.
Proof.
  intros. induction es as [|e es IH]; [destruct (_ && _); reflexivity|].
  cbn [map times same occ]. rewrite IH. clear IH.
  destruct (l =? e); cbn [andb];
    destruct ((match h, h' with OldWay, OldWay | NewWay, NewWay => true | _, _ => false end) && (id =? id') && eqb k k' && (c =? c')); reflexivity.
Qed.

Lemma times_gone_told : forall k c h' id' k' c' es, times (Gone k c) (map (fun x => Told x h' id' k' c') es) = O.
Proof. intros. induction es as [|e es IH]; [reflexivity|exact IH]. Qed.

Lemma sound_tail : forall p ps, sound (p :: ps) -> sound ps.
Proof. intros p ps S q H. apply S. right; exact H. Qed.

Lemma sound_head : forall p ps, sound (p :: ps) ->
  exists st, p_status p = Some st /\
   ((st <? Pl_Paused) = true /\ ready p OldWay = false /\ ready p NewWay = false \/
    (st <? Pl_Paused) = false /\ exists v, p_ver p = Some v /\ ready p OldWay = ((12 <=? v) && (v <=? 16)) /\ ready p NewWay = (17 <=? v)).
Proof.
  intros p ps S. destruct (S p (or_introl eq_refl)) as [st [S1 [S2 S3]]]. exists st. split; [exact S1|].
  unfold ready. rewrite S1. cbn [In] in S2. unfold Pl_NotFound, Pl_Error, Pl_Refused, Pl_Paused, Pl_Running in *.
  destruct S2 as [<-|[<-|[<-|[<-|[<-|[]]]]]].
  - left. destruct (p_ver p); auto.
  - left. destruct (p_ver p); auto.
  - left. destruct (p_ver p); auto.
  - right. destruct (p_ver p) as [v|]; [|exfalso; apply S3; auto]. split; [reflexivity|]. exists v. auto.
  - right. destruct (p_ver p) as [v|]; [|exfalso; apply S3; auto]. split; [reflexivity|]. exists v. auto.
Qed.

Definition nobody (i : Z) : bool := false.

Lemma tell_does : forall ps id k c, sound ps -> exists t, tell ps id k c = Some t /\
  (forall l h, times (Told l h id k c) t = ears ps nobody l h) /\
  (forall e, In e t -> exists l h, e = Told l h id k c).
Proof.
  intros ps id k c. induction ps as [|p ps IH]; intros S.
  - exists []. split; [reflexivity|]. split; [reflexivity|intros e []].
  - destruct (IH (sound_tail _ _ S)) as [t [T1 [T2 T3]]]. destruct (sound_head _ _ S) as [st [S1 S2]].
    cbn [tell]. rewrite S1. destruct S2 as [[S2 [R1 R2]]|[S2 [v [V [R1 R2]]]]]; rewrite S2.
    + exists t. split; [exact T1|]. split; [|exact T3]. intros l h. cbn [ears nobody negb andb]. rewrite T2.
      destruct h; rewrite ?R1, ?R2; reflexivity.
    + rewrite V, T1. destruct (v <? 12) eqn:V12.
      * exists t. split; [reflexivity|]. split; [|exact T3]. intros l h. cbn [ears nobody negb andb]. rewrite T2.
        apply Z.ltb_lt in V12.
        destruct h; rewrite ?R1, ?R2; [replace (12 <=? v) with false by (symmetry; apply Z.leb_gt; lia)|
          replace (17 <=? v) with false by (symmetry; apply Z.leb_gt; lia)]; reflexivity.
      * cbn [option_map]. eexists. split; [reflexivity|]. split.
        -- intros l h. rewrite times_app, T2, times_told. cbn [ears nobody negb andb]. f_equal.
           rewrite !Z.eqb_refl, eqb_reflx, !andb_true_r. apply Z.ltb_ge in V12.
           destruct h; rewrite ?R1, ?R2; destruct (v <? 17) eqn:V17;
             (apply Z.ltb_lt in V17 || apply Z.ltb_ge in V17).
           ++ replace (12 <=? v) with true by (symmetry; apply Z.leb_le; lia).
              replace (v <=? 16) with true by (symmetry; apply Z.leb_le; lia). reflexivity.
           ++ replace (v <=? 16) with false by (symmetry; apply Z.leb_gt; lia). rewrite andb_false_r. reflexivity.
           ++ replace (17 <=? v) with false by (symmetry; apply Z.leb_gt; lia). reflexivity.
           ++ replace (17 <=? v) with true by (symmetry; apply Z.leb_le; lia). reflexivity.
        -- intros e He. apply in_app_or in He. destruct He as [He|He]; [|apply T3, He].
           apply in_map_iff in He. destruct He as [l [E _]]. exists l. eexists. symmetry; exact E.
Qed.

Lemma in_time_one : forall t k c, (forall e, In e t -> exists l h i, e = Told l h i k c) -> in_time (t ++ [Gone k c]).
Proof.
  induction t as [|e t IH]; intros k c H; [exact I|].
  destruct (H e (or_introl eq_refl)) as [l [h [i E]]]. subst e. cbn [app in_time]. split.
  - destruct t as [|e2 t]; [split; reflexivity|]. destruct (H e2 (or_intror (or_introl eq_refl))) as [l2 [h2 [i2 E2]]].
    subst e2. split; reflexivity.
  - apply IH. intros e He. apply H. right; exact He.
Qed.

Lemma in_time_app : forall a k c b, in_time (a ++ [Gone k c]) -> in_time b -> in_time ((a ++ [Gone k c]) ++ b).
Proof.
  induction a as [|e a IH]; intros k c b Ha Hb; [exact Hb|]. cbn [app in_time] in *.
  destruct e as [l h i k1 c1|k1 c1]; [|apply IH; assumption].
  destruct Ha as [H1 H2]. split; [|apply IH; assumption].
  destruct a as [|e2 a]; [exact H1|]. exact H1.
Qed.

(** An object goes: each listener of each loaded plugin that knows the call is told once, in
    the way its plugin's version knows, before the object goes. *)
Theorem C88_told : forall ps id k c, sound ps -> exists t, unregister ps id k c = Some (t ++ [Gone k c]) /\
  (forall l h, times (Told l h id k c) t = ears ps (fun _ => false) l h) /\
  (forall e, In e t -> exists l h, e = Told l h id k c).
Proof.
  intros ps id k c S. destruct (tell_does ps id k c S) as [t [T1 [T2 T3]]].
  exists t. unfold unregister. rewrite T1. split; [reflexivity|]. split; [exact T2|exact T3].
Qed.
Print Assumptions C88_told.

Lemma times_none : forall t l h id k c, (forall e, In e t -> exists l h i, e = Told l h i k c) ->
  forall k' c', eqb k' k && (c' =? c) = false -> times (Told l h id k' c') (t ++ [Gone k c]) = O.
Proof.
  induction t as [|e t IH]; intros l h id k c H k' c' N; [reflexivity|].
  destruct (H e (or_introl eq_refl)) as [l2 [h2 [i2 E]]]. subst e. cbn [app times same].
  rewrite (IH l h id k c) by (try exact N; intros e He; apply H; right; exact He).
  rewrite <- !andb_assoc, N, !andb_false_r. reflexivity.
Qed.

Lemma each_does : forall ps id k l, sound ps -> exists t, unregister_each ps id k l = Some t /\
  (forall x h k' c, times (Told x h id k' c) t = if eqb k' k then (occ c l * ears ps nobody x h)%nat else O) /\
  (forall k' c, times (Gone k' c) t = if eqb k' k then occ c l else O) /\
  (forall x h i k' c, In (Told x h i k' c) t -> i = id) /\
  in_time t /\ (t = [] \/ exists a c, t = a ++ [Gone k c]).
Proof.
  intros ps id k l S. induction l as [|c l [t [T1 [T2 [T3 [T4 [T5 T6]]]]]]].
  - exists []. split; [reflexivity|]. split; [intros; destruct (eqb k' k); reflexivity|].
    split; [intros; destruct (eqb k' k); reflexivity|]. split; [intros ? ? ? ? ? []|]. split; [exact I|left; reflexivity].
  - destruct (C88_told ps id k c S) as [u [U1 [U2 U3]]]. cbn [unregister_each]. rewrite U1, T1.
    assert (U4 : forall e, In e u -> exists l h i, e = Told l h i k c).
    { intros e He. destruct (U3 e He) as [x [h E]]. exists x, h, id. exact E. }
    assert (U5 : forall k' c', times (Gone k' c') u = O).
    { intros k' c'. clear U1 U2 U4. induction u as [|e u IH]; [reflexivity|].
      destruct (U3 e (or_introl eq_refl)) as [x [h E]]. subst e. cbn [times same]. apply IH.
      intros e He. apply U3. right; exact He. }
    eexists. split; [reflexivity|]. split; [|split; [|split; [|split]]].
    + intros x h k' c'. rewrite times_app, T2. cbn [occ].
      destruct (eqb k' k && (c' =? c)) eqn:Q.
      * apply andb_true_iff in Q. destruct Q as [Q1 Q2]. rewrite Q1. apply eqb_prop in Q1. rewrite Q2. apply Z.eqb_eq in Q2. subst k' c'.
        rewrite times_app, U2. cbn [times same]. unfold nobody. lia.
      * rewrite (times_none u x h id k c U4 k' c' Q). destruct (eqb k' k); [|reflexivity]. cbn [andb] in Q. rewrite Q. reflexivity.
    + intros k' c'. rewrite !times_app, T3, U5. cbn [times same occ]. destruct (eqb k' k); cbn [andb]; [|reflexivity]. destruct (c' =? c); reflexivity.
    + intros x h i k' c' H. apply in_app_or in H. destruct H as [H|H]; [|apply (T4 _ _ _ _ _ H)].
      apply in_app_or in H. destruct H as [H|[H|[]]]; [|discriminate H].
      destruct (U3 _ H) as [x2 [h2 E]]. inversion E; reflexivity.
    + apply in_time_app; [apply in_time_one, U4|exact T5].
    + right. destruct T6 as [E|[a [c2 E]]]; subst t.
      * rewrite app_nil_r. exists u, c. reflexivity.
      * exists ((u ++ [Gone k c]) ++ a), c2. rewrite <- !app_assoc. reflexivity.
Qed.

Lemma ears_clear : forall ps id x h, ears (clear_events id ps) nobody x h = ears ps (Z.eqb id) x h.
Proof.
  intros ps id x h. induction ps as [|p ps IH]; [reflexivity|]. unfold clear_events in *. cbn [map ears]. rewrite IH. f_equal.
  rewrite (Z.eqb_sym id). destruct (p_id p =? id) eqn:E.
  - cbn [nobody negb andb p_id p_events occ]. destruct (ready _ h); reflexivity.
  - unfold nobody. reflexivity.
Qed.

Lemma clear_sound : forall ps id, sound ps -> sound (clear_events id ps).
Proof.
  intros ps id S p H. unfold clear_events in H. apply in_map_iff in H. destruct H as [q [E H]].
  destruct (S q H) as [st Q]. exists st. destruct (p_id q =? id); subst p; exact Q.
Qed.

(** A plugin is unloaded (or refused): everything it has registered goes, as often as it is
    registered; of each, every listener of every other loaded plugin that knows the call is told
    once, in the way its version knows; the listeners of the plugin itself are told nothing; and
    everybody is told before the object goes. *)
Theorem C88_unload : forall ps p, sound ps -> exists t, unload ps p = Some t /\
  (forall k c, times (Gone k c) t = occ c (if k then p_cmds p else p_cvars p)) /\
  (forall x h k c, times (Told x h (p_id p) k c) t =
     (occ c (if k then p_cmds p else p_cvars p) * ears ps (Z.eqb (p_id p)) x h)%nat) /\
  (forall x h i k c, In (Told x h i k c) t -> i = p_id p) /\ in_time t.
Proof.
  intros ps p S. pose proof (clear_sound ps (p_id p) S) as S2. unfold unload, unreg_all.
  destruct (each_does _ (p_id p) false (p_cvars p) S2) as [a [A1 [A2 [A3 [A4 [A5 A6]]]]]].
  destruct (each_does _ (p_id p) true (p_cmds p) S2) as [b [B1 [B2 [B3 [B4 [B5 B6]]]]]].
  rewrite A1, B1. exists (a ++ b). split; [reflexivity|]. split; [|split; [|split]].
  - intros k c. rewrite times_app, A3, B3. destruct k; cbn [eqb]; lia.
  - intros x h k c. rewrite times_app, A2, B2, ears_clear. destruct k; cbn [eqb]; lia.
  - intros x h i k c H. apply in_app_or in H. destruct H as [H|H]; [apply (A4 _ _ _ _ _ H)|apply (B4 _ _ _ _ _ H)].
  - destruct A6 as [E|[u [c E]]]; subst a; [exact B5|apply in_time_app; assumption].
Qed.
Print Assumptions C88_unload.

Definition ex_ps : list plug :=
  [Plug 1 (Some Pl_Running) (Some 17) 11 [71; 72] [201] [101; 102];
   Plug 2 (Some Pl_Paused) (Some 15) 12 [73] [] [];
   Plug 3 (Some Pl_Refused) None 0 [] [] [];
   Plug 4 (Some Pl_Running) (Some 17) 14 [74; 75] [] [104];
   Plug 5 (Some Pl_Running) (Some 11) 15 [76] [] []].

Lemma ex_sound : sound ex_ps.
Proof.
  intros p H. unfold ex_ps in H. cbn [In] in H.
  destruct H as [<-|[<-|[<-|[<-|[<-|[]]]]]]; eexists; (split; [reflexivity|]); split; try (vm_compute; auto 6; fail);
    cbn [p_ver]; intros Q; try discriminate; destruct Q; discriminate.
Qed.

Example C88_told_example : sound ex_ps /\ unregister ex_ps 1 true 101 =
  Some [Told 71 NewWay 1 true 101; Told 72 NewWay 1 true 101; Told 73 OldWay 1 true 101;
        Told 74 NewWay 1 true 101; Told 75 NewWay 1 true 101; Gone true 101].
Proof. split; [exact ex_sound|vm_compute; reflexivity]. Qed.

Example C88_unload_example : sound ex_ps /\ unload ex_ps (Plug 1 (Some Pl_Running) (Some 17) 11 [71; 72] [201] [101]) =
  Some [Told 73 OldWay 1 false 201; Told 74 NewWay 1 false 201; Told 75 NewWay 1 false 201; Gone false 201;
        Told 73 OldWay 1 true 101; Told 74 NewWay 1 true 101; Told 75 NewWay 1 true 101; Gone true 101].
Proof. split; [exact ex_sound|vm_compute; reflexivity]. Qed.

Lemma find_api_owner : forall ps api, find_api ps api = owner ps api.
Proof.
  intros ps api. unfold find_api, owner. destruct (api =? 0) eqn:E.
  - apply Z.eqb_eq in E. subst api. induction ps as [|p ps IH]; [reflexivity|]. cbn [filter].
    destruct (p_api p =? 0); exact IH.
  - induction ps as [|p ps IH]; [reflexivity|]. cbn [find filter]. destruct (p_api p =? api) eqn:F.
    + apply Z.eqb_eq in F. rewrite F, E. reflexivity.
    + rewrite andb_false_r. exact IH.
Qed.

(** A plugin unregisters an object: it is taken once from that plugin's list and from no other
    list, and everybody is told under the plugin's id (0 if Metamod:Source does not know it). *)
Theorem C88_plugin : forall ps api k c, sound ps -> NoDup (map p_id ps) -> exists ps' t,
  plugin_unregister ps api k c = Some (ps', t ++ [Gone k c]) /\
  (forall l h, times (Told l h (match owner ps api with Some p => p_id p | None => 0 end) k c) t =
     ears ps (fun _ => false) l h) /\
  length ps' = length ps /\
  (forall p q, In (p, q) (combine ps ps') ->
     p_id q = p_id p /\ p_events q = p_events p /\ p_status q = p_status p /\
     forall (k' : bool) c', occ c' (if k' then p_cmds q else p_cvars q) =
       (occ c' (if k' then p_cmds p else p_cvars p) -
        (if eqb k' k && (c' =? c)%Z then match owner ps api with Some o => if (p_id p =? p_id o)%Z then 1 else 0 | None => 0 end else 0))%nat).
Proof.
  assert (OR : forall c c' l, occ c' (remove1 c l) = (occ c' l - (if (c' =? c)%Z then 1 else 0))%nat).
  { intros c c' l. induction l as [|x l IH]; [cbn; destruct (c' =? c); reflexivity|]. cbn [remove1].
    destruct (x =? c) eqn:E.
    - apply Z.eqb_eq in E. subst x. cbn [occ]. destruct (c' =? c); lia.
    - cbn [occ]. rewrite IH. destruct (c' =? x) eqn:F; [|lia]. apply Z.eqb_eq in F. subst x. rewrite E. lia. }
  assert (TS : forall k c id ps, sound ps -> sound (take k c id ps)).
  { intros k c id ps S p H. unfold take in H. apply in_map_iff in H. destruct H as [q [E H]].
    destruct (S q H) as [st Q]. exists st. destruct (p_id q =? id), k; subst p; exact Q. }
  assert (TE : forall k c id ps l h, ears (take k c id ps) nobody l h = ears ps nobody l h).
  { intros k c id ps l h. unfold take. induction ps as [|p ps IH]; [reflexivity|]. cbn [map ears]. rewrite IH.
    destruct (p_id p =? id), k; reflexivity. }
  assert (CI : forall (f : plug -> plug) ps p q, In (p, q) (combine ps (map f ps)) -> q = f p).
  { intros f ps. induction ps as [|x ps IH]; intros p q H; [destruct H|]. cbn [map combine] in H.
    destruct H as [H|H]; [inversion H; reflexivity|apply IH, H]. }
  intros ps api k c S ND. rewrite <- find_api_owner. unfold plugin_unregister. cbv zeta. destruct (find_api ps api) as [o|] eqn:F.
  - destruct (C88_told (take k c (p_id o) ps) (p_id o) k c (TS _ _ _ _ S)) as [t [T1 [T2 _]]]. rewrite T1.
    exists (take k c (p_id o) ps), t. split; [reflexivity|]. split; [intros l h; rewrite T2; apply TE|].
    split; [apply map_length|]. intros p q H. apply CI in H. subst q.
    destruct (p_id p =? p_id o) eqn:E; destruct k; cbn [p_id p_events p_status p_cmds p_cvars];
      (split; [reflexivity|]); (split; [reflexivity|]); (split; [reflexivity|]); intros k' c'; destruct k'; cbn [eqb andb];
      rewrite ?OR; try lia; destruct (c' =? c); lia.
  - destruct (C88_told ps 0 k c S) as [t [T1 [T2 _]]]. rewrite T1.
    exists ps, t. split; [reflexivity|]. split; [exact T2|]. split; [reflexivity|].
    intros p q H. assert (E : q = p).
    { clear - H. induction ps as [|x ps IH]; [destruct H|]. cbn [combine] in H. destruct H as [H|H]; [inversion H; subst; reflexivity|apply IH, H]. }
    subst q. split; [reflexivity|]. split; [reflexivity|]. split; [reflexivity|]. intros k' c'.
    destruct (eqb k' k && (c' =? c)); lia.
Qed.
Print Assumptions C88_plugin.

Example C88_plugin_example : sound ex_ps /\ NoDup (map p_id ex_ps) /\
  option_map (fun r => map p_cmds (fst r)) (plugin_unregister ex_ps 11 true 102) = Some [[101]; []; []; [104]; []].
Proof.
  split; [exact ex_sound|]. split; [|vm_compute; reflexivity].
  cbn. repeat constructor; cbn; lia.
Qed.

(** While a plugin is being loaded its status is not set: whoever unregisters something then
    (the plugin itself, or another that reacts) has the loop read it. *)
Theorem C88_loading_refuted : exists ps p, In p ps /\ p_status p = None /\
  (forall q, In q ps -> q <> p -> p_status q = Some Pl_Running /\ p_ver q = Some 17) /\
  forall id k c, unregister ps id k c = None.
Proof.
  exists [Plug 1 (Some Pl_Running) (Some 17) 11 [71] [] []; Plug 2 None (Some 17) 12 [] [] []], (Plug 2 None (Some 17) 12 [] [] []).
  split; [right; left; reflexivity|]. split; [reflexivity|]. split; [|reflexivity].
  intros q [H|[H|[]]] N; [subst q; auto|congruence].
Qed.
Print Assumptions C88_loading_refuted.
