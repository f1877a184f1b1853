(** Proofs about where plugins are looked for. *)
From Coq Require Import List Bool String Lia.
From Verif Require Import CfgModel CfgSpec.
Import ListNotations.
Local Open Scope string_scope.

Lemma said_correct e key : signed key = false -> GetCommandLineValue e key None = said e key.
Proof.
  intros S. unfold GetCommandLineValue, said, or_def. rewrite S. destruct (eng e).
  - destruct (icvar e); [|reflexivity]. destruct (cvarcmd e key); reflexivity.
  - destruct (parm e key); reflexivity.
Qed.

Definition good (v : place) : Prop := fst v <> "" /\ snd v <> "".
Definition ok (e : env) (v : place) : Prop := eng e = Source1 \/ good v.
Lemma convar e t : eng e = Source1 \/ t <> "" -> GetConVarString e (Some t) = Some t.
Proof.
  intros H. unfold GetConVarString. destruct (eng e); [reflexivity|]. destruct H as [H|H]; [discriminate H|].
  apply String.eqb_neq in H. rewrite H. reflexivity.
Qed.

Lemma initial e s v : pluginsfile s = Some (fst v) -> basedir s = Some (snd v) -> ok e v ->
  DoInitialPluginLoads e s = Some (mk (pluginsfile s) (basedir s) (were_loaded s) (in_first s) (game_init s) (loads s ++ [at_ e (over e v)])).
Proof.
  intros F D O. unfold DoInitialPluginLoads. rewrite !said_correct by reflexivity.
  rewrite F, D, !convar by (destruct O as [O|[O1 O2]]; auto). unfold at_, over. cbn [fst snd].
  destruct (said e "mm_pluginsfile"), (said e "mm_basedir"); unfold load; rewrite F, D; reflexivity.
Qed.
Lemma later e s v : pluginsfile s = Some (fst v) -> basedir s = Some (snd v) -> ok e v ->
  load (GetConVarString e (pluginsfile s)) (GetConVarString e (basedir s)) e s =
  Some (mk (pluginsfile s) (basedir s) (were_loaded s) (in_first s) (game_init s) (loads s ++ [at_ e v])).
Proof.
  intros F D O. rewrite F, D, !convar by (destruct O as [O|[O1 O2]]; auto). unfold load. rewrite F, D. reflexivity.
Qed.

(** [first]: the first load is to come *)
Lemma run_spec e l : forall s v first skip,
  pluginsfile s = Some (fst v) -> basedir s = Some (snd v) -> ok e v ->
  first = vsp e && negb (were_loaded s) -> (first = false -> skip = in_first s) -> (first = true -> in_first s = true /\ game_init s = false) ->
  (eng e = Source1 \/ Forall nonempty l) ->
  exists s', run e l s = Some s' /\ loads s' = (loads s ++ expect e first skip v l)%list.
Proof.
  induction l as [|o l IH]; intros s v first skip F D O Fi Sk Fs N.
  - exists s. cbn [run expect]. rewrite app_nil_r. auto.
  - assert (N' : eng e = Source1 \/ Forall nonempty l).
    { destruct N as [N|N]; [auto|]. right. inversion N. assumption. }
    assert (No : eng e = Source1 \/ nonempty o).
    { destruct N as [N|N]; [auto|]. right. inversion N. assumption. }
    cbn [run]. destruct o as [x|x| | |]; cbn [step expect].
    + apply (IH (mk (Some x) (basedir s) (were_loaded s) (in_first s) (game_init s) (loads s)) (x, snd v) first skip);
        cbn [pluginsfile basedir were_loaded in_first game_init fst snd]; auto.
      destruct O as [O|[O1 O2]]; [left; exact O|]. destruct No as [No|[No _]]; [left; exact No|]. right. split; [|exact O2].
      cbn [fst]. intros ->. apply No. reflexivity.
    + apply (IH (mk (pluginsfile s) (Some x) (were_loaded s) (in_first s) (game_init s) (loads s)) (fst v, x) first skip);
        cbn [pluginsfile basedir were_loaded in_first game_init fst snd]; auto.
      destruct O as [O|[O1 O2]]; [left; exact O|]. destruct No as [No|[_ No]]; [left; exact No|]. right. split; [exact O1|].
      cbn [snd]. intros ->. apply No. reflexivity.
    + unfold OnGameInit. rewrite <- Fi. destruct first.
      * destruct (Fs eq_refl) as [If Gi]. rewrite Gi, (initial e s v F D O).
        cbn [pluginsfile basedir were_loaded in_first game_init loads].
        destruct (IH (mk (pluginsfile s) (basedir s) true (in_first s) true (loads s ++ [at_ e (over e v)])) v false true) as (s' & R & L);
          cbn [pluginsfile basedir were_loaded in_first game_init loads]; auto; try discriminate.
        { rewrite andb_false_r. reflexivity. }
        exists s'. rewrite R, L. cbn [loads]. rewrite <- app_assoc. auto.
      * destruct (game_init s).
        -- apply (IH s v false skip); auto; discriminate.
        -- apply (IH (mk (pluginsfile s) (basedir s) (were_loaded s) (in_first s) true (loads s)) v false skip);
             cbn [pluginsfile basedir were_loaded in_first game_init loads]; auto; discriminate.
    + unfold OnLevelShutdown. rewrite <- Fi. destruct first.
      * rewrite (initial e s v F D O). cbn [pluginsfile basedir were_loaded in_first game_init loads negb].
        destruct (IH (mk (pluginsfile s) (basedir s) true false (game_init s) (loads s ++ [at_ e (over e v)])) v false false) as (s' & R & L);
          cbn [pluginsfile basedir were_loaded in_first game_init loads]; auto; try discriminate.
        { rewrite andb_false_r. reflexivity. }
        exists s'. rewrite R, L. cbn [loads]. rewrite <- app_assoc. auto.
      * rewrite (Sk eq_refl). destruct (in_first s) eqn:I; cbn [negb].
        -- destruct (IH (mk (pluginsfile s) (basedir s) (were_loaded s) false (game_init s) (loads s)) v false false) as (s' & R & L);
             cbn [pluginsfile basedir were_loaded in_first game_init loads]; auto; try discriminate.
           exists s'. rewrite R, L. auto.
        -- rewrite (later e s v F D O).
           destruct (IH (mk (pluginsfile s) (basedir s) (were_loaded s) (in_first s) (game_init s) (loads s ++ [at_ e v])) v false false) as (s' & R & L);
             cbn [pluginsfile basedir were_loaded in_first game_init loads]; auto; try discriminate.
           exists s'. rewrite R, L. cbn [loads]. rewrite <- app_assoc. auto.
    + unfold meta_refresh. rewrite (later e s v F D O).
      destruct (IH (mk (pluginsfile s) (basedir s) (were_loaded s) (in_first s) (game_init s) (loads s ++ [at_ e v])) v first skip) as (s' & R & L);
        cbn [pluginsfile basedir were_loaded in_first game_init loads]; auto.
      exists s'. rewrite R, L. cbn [loads]. rewrite <- app_assoc. auto.
Qed.

Lemma session_spec e l : eng e = Source1 \/ Forall nonempty l ->
  exists s, session e l = Some s /\ loads s = expected e l.
Proof.
  intros N. unfold session, mm_StartupMetamod, expected.
  destruct (vsp e) eqn:V.
  - destruct (run_spec e l (mk (Some "addons/metamod/metaplugins.ini") (Some "addons/metamod") false true false [])
      defaults true false) as (s & R & L); cbn [pluginsfile basedir were_loaded in_first game_init loads start]; auto;
      try (right; split; discriminate); try (rewrite V; reflexivity); try discriminate.
    exists s. split; [exact R|exact L].
  - rewrite (initial e _ defaults); [|reflexivity|reflexivity|right; split; discriminate].
    cbn [pluginsfile basedir were_loaded in_first game_init loads start app].
    destruct (run_spec e l (mk (Some "addons/metamod/metaplugins.ini") (Some "addons/metamod") false true false [at_ e (over e defaults)])
      defaults false true) as (s & R & L); cbn [pluginsfile basedir were_loaded in_first game_init loads]; auto;
      try (right; split; discriminate); try (rewrite V; reflexivity); try discriminate.
    exists s. split; [exact R|exact L].
Qed.

(** when the variables say what the command line says, every load goes to the same place *)
Lemma expect_same e l : forall first skip v, over e v = v -> forallb (fun o => negb (changes o)) l = true ->
  forall p, In p (expect e first skip v l) -> p = at_ e v.
Proof.
  induction l as [|o l IH]; intros first skip v O H p I; [destruct I|]. cbn [forallb] in H.
  apply andb_true_iff in H. destruct H as [Ho H]. destruct o as [x|x| | |]; cbn [changes negb] in Ho; try discriminate Ho; cbn [expect] in I.
  - destruct first; [rewrite O in I; destruct I as [<-|I]; [reflexivity|]|]; eapply IH; eassumption.
  - destruct first; [|destruct skip].
    + rewrite O in I. destruct I as [<-|I]; [reflexivity|]. eapply IH; eassumption.
    + eapply IH; eassumption.
    + destruct I as [<-|I]; [reflexivity|]. eapply IH; eassumption.
  - destruct I as [<-|I]; [reflexivity|]. eapply IH; eassumption.
Qed.
