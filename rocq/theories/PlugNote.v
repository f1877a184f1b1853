(** Which notifications the plugin manager sends. *)
From Coq Require Import List ZArith Bool Arith Ascii Lia.
From Verif Require Import Base ListModel StrModel StrSpec StrProofs PlugModel PlugProofs PlugRun.
Import ListNotations.
Local Open Scope list_scope.
Local Open Scope nat_scope.
Notation length := List.length.

Definition is_note (c : call) : Prop := match c with CNote _ _ _ => True | _ => False end.
(** Between the two states calls were made, but no listener was notified. *)
Definition quiet (s s' : st) : Prop := exists pre, log s' = log s ++ pre /\ (forall c, In c pre -> ~ is_note c).

Lemma quiet_eq s s' : log s' = log s -> quiet s s'.
Proof. intros E. exists []. rewrite app_nil_r. split; [exact E|]. intros c []. Qed.
Lemma quiet_refl s : quiet s s.
Proof. apply quiet_eq. reflexivity. Qed.
Lemma quiet_trans s1 s2 s3 : quiet s1 s2 -> quiet s2 s3 -> quiet s1 s3.
Proof.
  intros (p1 & E1 & N1) (p2 & E2 & N2). exists (p1 ++ p2). rewrite E2, E1, app_assoc. split; [reflexivity|]. intros c I. apply in_app_or in I. destruct I; auto.
Qed.
Lemma quiet_say s l : (forall c, In c l -> ~ is_note c) -> quiet s (say l s).
Proof. intros N. exists l. split; [reflexivity|exact N]. Qed.
Lemma quiet_l s s1 s' : log s1 = log s -> quiet s1 s' -> quiet s s'.
Proof. intros E (pre & P & N). exists pre. rewrite P, E. auto. Qed.
Lemma quiet_r s s1 s' : log s' = log s1 -> quiet s s1 -> quiet s s'.
Proof. intros E (pre & P & N). exists pre. rewrite E, P. auto. Qed.

Lemma call_all_quiet s sel mk s' : (forall l, ~ is_note (mk l)) -> call_all s sel mk = Some s' -> quiet s s'.
Proof.
  intros N E. unfold call_all in E. destruct (gather s sel (plugins s)) as [ls|]; [|discriminate].
  destruct (forallb (fun l => is_open s (fst l)) ls); [|discriminate]. injection E as <-. apply quiet_say. intros c I. apply in_map_iff in I. destruct I as (l & <- & _). apply N.
Qed.
Lemma unregister_quiet s id c s' : unregister s id c = Some s' -> quiet s s'.
Proof. intros E. apply call_all_quiet in E; [exact E|]. intros l []. Qed.
Lemma unreg_list_quiet cs : forall s id s', unreg_list s id cs = Some s' -> quiet s s'.
Proof.
  induction cs as [|c cs IH]; intros s id s' E; cbn [unreg_list] in E; [injection E as <-; apply quiet_refl|].
  destruct (unregister s id c) as [s1|] eqn:U; [|discriminate]. eapply quiet_trans; [eapply unregister_quiet; exact U|eapply IH; exact E].
Qed.
Lemma unreg_all_quiet s a s' : unreg_all s a = Some s' -> quiet s s'.
Proof.
  unfold unreg_all. destruct (getp s a) as [p|]; [|discriminate]. destruct (unreg_list s (p_id p) (p_cons p)) as [s1|] eqn:U; [|discriminate].
  destruct (getp s1 a) as [q|]; [|discriminate]. intros E. injection E as <-. eapply quiet_r; [|eapply unreg_list_quiet; exact U]. reflexivity.
Qed.
Lemma run_act_quiet a s x s' : run_act a s x = Some s' -> quiet s s'.
Proof.
  unfold run_act. destruct (getp s a) as [p|]; [|discriminate]. destruct (p_api p) as [api|]; [|discriminate]. destruct (p_lib p) as [lib|]; [|discriminate].
  destruct x.
  - intros E. injection E as <-. apply quiet_eq. reflexivity.
  - intros E. injection E as <-. apply quiet_eq. reflexivity.
  - destruct (find_api s (plugins s) api) as [[b|]|]; try discriminate. destruct (getp s b); [|discriminate]. intros E. injection E as <-. apply quiet_eq. reflexivity.
  - destruct (find_api s (plugins s) api) as [[b|]|]; try discriminate.
    + destruct (getp s b); [|discriminate]. intros E. injection E as <-. apply quiet_eq. reflexivity.
    + intros E. injection E as <-. apply quiet_eq. reflexivity.
  - destruct (find_api s (plugins s) api) as [[b|]|]; try discriminate.
    + destruct (getp s b) as [q|]; [|discriminate]. intros E. apply unregister_quiet in E. eapply quiet_l; [|exact E]. reflexivity.
    + apply unregister_quiet.
Qed.
Lemma run_acts_quiet a l : forall s s', run_acts a s l = Some s' -> quiet s s'.
Proof.
  induction l as [|x l IH]; intros s s' E; cbn [run_acts] in E; [injection E as <-; apply quiet_refl|].
  destruct (run_act a s x) as [s1|] eqn:R; [|discriminate]. eapply quiet_trans; [eapply run_act_quiet; exact R|eapply IH; exact E].
Qed.
Lemma call_plugin_quiet s a c acts s' : ~ is_note c -> call_plugin s a c acts = Some s' -> quiet s s'.
Proof.
  intros N. unfold call_plugin. destruct (getp s a) as [p|]; [|discriminate]. destruct (callable s p); [|discriminate]. intros E. apply run_acts_quiet in E.
  eapply quiet_trans; [|exact E]. apply quiet_say. intros d [<-|[]]. exact N.
Qed.
Lemma ready_quiet s a d s' : ready s a d = Some s' -> quiet s s'.
Proof.
  intros E. apply ready_spec in E. destruct E as (p & _ & _ & _ & _ & _ & _ & _ & _ & _ & _ & L & _). exists (match p_ufn p with Some _ => [CUnloadFn a] | None => [] end).
  split; [exact L|]. destruct (p_ufn p); [intros c [<-|[]] []|intros c []].
Qed.
Lemma sh_unload_quiet s plug a d s' : sh_unload s plug a d = Some s' -> quiet s s'.
Proof.
  unfold sh_unload. destruct (depth _ =? 0); intros E.
  - apply ready_quiet in E. eapply quiet_l; [|exact E]. reflexivity.
  - injection E as <-. apply quiet_eq. reflexivity.
Qed.
Lemma resolve_quiet force l : forall s s' l', resolve force s l = Some (s', l') -> quiet s s'.
Proof.
  induction l as [|u l IH]; intros s s' l' E; cbn [resolve] in E; [injection E as <- _; apply quiet_refl|].
  destruct (negb force && negb (u_deactivated u)).
  - destruct (resolve force s l) as [[s1 l1]|] eqn:R; [|discriminate]. injection E as <- _. eapply IH. exact R.
  - destruct (ready s (u_addr u) (u_destroy u)) as [s1|] eqn:R; [|discriminate]. eapply quiet_trans; [eapply ready_quiet; exact R|eapply IH; exact E].
Qed.
Lemma load_lib_quiet s a li s' : load_lib s a li = Some s' -> quiet s s'.
Proof.
  intros E. unfold load_lib in E.
  set (s1 := set_nlib (S (nlib s)) (set_libs (libs s ++ [nlib s]) s)) in *. assert (L1 : log s1 = log s) by reflexivity. clearbody s1.
  destruct (getp s1 a) as [p0|]; [|discriminate].
  match type of E with (match ?x with _ => _ end) = _ => destruct x end; [|injection E as <-; apply quiet_eq; exact L1].
  match type of E with (if ?x then _ else _) = _ => destruct x end; [injection E as <-; apply quiet_eq; exact L1|].
  match type of E with context [call_plugin ?x _ _ _] => set (s2 := x) in E end. assert (L2 : log s2 = log s) by exact L1.
  match type of E with context [call_plugin s2 a ?c ?l] => destruct (call_plugin s2 a c l) as [s3|] eqn:C end; [|discriminate].
  apply call_plugin_quiet in C; [|intros []]. destruct (getp s3 a) as [p3|]; [|discriminate].
  destruct (snd (li_load li)).
  - destruct (allloaded _).
    + apply call_plugin_quiet in E; [|intros []]. eapply quiet_l; [exact (eq_sym (eq_sym L2))|]. eapply quiet_trans; [exact C|]. eapply quiet_l; [|exact E]. reflexivity.
    + injection E as <-. eapply quiet_l; [exact L2|]. eapply quiet_r; [|exact C]. reflexivity.
  - injection E as <-. eapply quiet_l; [exact L2|]. eapply quiet_r; [|exact C]. reflexivity.
Qed.
Lemma _Load_quiet s file li s' a : _Load s file li = Some (s', a) -> quiet s s'.
Proof.
  intros E. unfold _Load in E. set (s1 := set_last _ _) in E. assert (L1 : log s1 = log s) by reflexivity. clearbody s1.
  set (e := if ends_with file so_ext && li_exists li then _ else _) in E.
  assert (X : forall s2, e = Some s2 -> quiet s s2).
  { unfold e. intros s2. destruct (ends_with file so_ext && li_exists li); [destruct (li_dl li)|].
    - intros R. apply load_lib_quiet in R. eapply quiet_l; [exact L1|exact R].
    - intros R. injection R as <-. apply quiet_eq. exact L1.
    - intros R. injection R as <-. apply quiet_eq. exact L1. }
  destruct e as [s2|]; [|discriminate]. specialize (X s2 eq_refl). destruct (getp s2 _) as [p|]; [|discriminate]. destruct (p_status p) as [x|]; [|discriminate].
  match type of E with (if ?x then _ else _) = _ => destruct x end; [|injection E as <- _; exact X].
  match type of E with context [unreg_all ?x ?y] => destruct (unreg_all x y) as [s3|] eqn:U end; [|discriminate].
  destruct (sh_unload s3 _ _ _) as [s4|] eqn:H; [|discriminate]. injection E as <- _. apply unreg_all_quiet in U. apply sh_unload_quiet in H.
  eapply quiet_trans; [exact X|]. eapply quiet_trans; [|exact H]. eapply quiet_l; [|exact U]. reflexivity.
Qed.
Lemma _Unload_quiet s a force c s' r : _Unload s a force c = Some (s', r) -> quiet s s'.
Proof.
  intros E. unfold _Unload in E. destruct (getp s a) as [p|]; [|discriminate].
  assert (X : (do l <- erase_id s (plugins s) (p_id p) ; Some (setp (set_plugins l s) a None, true)) = Some (s', r) -> quiet s s').
  { destruct (erase_id s (plugins s) (p_id p)); [|discriminate]. intros R. injection R as <- _. apply quiet_eq. reflexivity. }
  destruct (p_api p); [destruct (p_lib p)|]; auto. clear X.
  destruct (call_plugin s a _ (fst c)) as [s1|] eqn:C; [|discriminate]. apply call_plugin_quiet in C; [|intros []].
  destruct (snd c || force); [|injection E as <- _; exact C]. destruct (getp s1 a) as [p1|]; [|discriminate].
  match type of E with context [unreg_all ?x ?y] => destruct (unreg_all x y) as [s2|] eqn:U end; [|discriminate]. apply unreg_all_quiet in U.
  destruct (erase_id s2 _ _) as [l|]; [|discriminate]. destruct (sh_unload (set_plugins l s2) _ _ _) as [s3|] eqn:H; [|discriminate]. injection E as <- _. apply sh_unload_quiet in H.
  eapply quiet_trans; [exact C|]. eapply quiet_trans; [|eapply quiet_l; [|exact H]; reflexivity]. eapply quiet_l; [|exact U]. reflexivity.
Qed.
Lemma _Pause_quiet s a c s' r : _Pause s a c = Some (s', r) -> quiet s s'.
Proof.
  intros E. unfold _Pause in E. destruct (getp s a) as [p|]; [|discriminate]. destruct (p_status p) as [x|]; [|discriminate].
  assert (X : Some (s, false) = Some (s', r) -> quiet s s') by (intros R; injection R as <- _; apply quiet_refl).
  destruct x; auto. destruct (p_api p); auto. destruct (call_plugin s a _ (fst c)) as [s1|] eqn:C; [|discriminate]. apply call_plugin_quiet in C; [|intros []].
  destruct (snd c); [|injection E as <- _; exact C]. destruct (getp s1 a); [|discriminate]. injection E as <- _. eapply quiet_r; [|exact C]. reflexivity.
Qed.
Lemma _Unpause_quiet s a c s' r : _Unpause s a c = Some (s', r) -> quiet s s'.
Proof.
  intros E. unfold _Unpause in E. destruct (getp s a) as [p|]; [|discriminate]. destruct (p_status p) as [x|]; [|discriminate].
  assert (X : Some (s, false) = Some (s', r) -> quiet s s') by (intros R; injection R as <- _; apply quiet_refl).
  destruct x; auto. destruct (p_api p); auto. destruct (call_plugin s a _ (fst c)) as [s1|] eqn:C; [|discriminate]. apply call_plugin_quiet in C; [|intros []].
  destruct (snd c); [|injection E as <- _; exact C]. destruct (getp s1 a); [|discriminate]. injection E as <- _. eapply quiet_r; [|exact C]. reflexivity.
Qed.
Lemma Retry_quiet s id li c s' r : Retry s id li c = Some (s', r) -> quiet s s'.
Proof.
  intros E. unfold Retry in E. destruct (find_id s (plugins s) id) as [[a|]|]; try discriminate; [|injection E as <- _; apply quiet_refl].
  destruct (getp s a) as [p|]; [|discriminate]. destruct (p_status p) as [x|]; [|discriminate]. destruct (loaded x); [injection E as <- _; apply quiet_refl|].
  destruct (_Load s (p_file p) li) as [[s1 b]|] eqn:L; [|discriminate]. apply _Load_quiet in L. destruct (getp s1 b) as [q|]; [|discriminate]. destruct (p_status q) as [y|]; [|discriminate].
  destruct (loaded y).
  - destruct (_Unload s1 a true c) as [[s2 k]|] eqn:U; [|discriminate]. apply _Unload_quiet in U. destruct (getp s2 b); [|discriminate]. injection E as <- _.
    eapply quiet_r; [|eapply quiet_trans; [exact L|exact U]]. reflexivity.
  - destruct (_Unload s1 b true c) as [[s2 k]|] eqn:U; [|discriminate]. apply _Unload_quiet in U. injection E as <- _. eapply quiet_r; [|eapply quiet_trans; [exact L|exact U]]. reflexivity.
Qed.
Lemma UnloadAll_quiet fuel : forall s cs s' r, UnloadAll fuel s cs = Some (Some (s', r)) -> quiet s s'.
Proof.
  induction fuel as [|f IH]; intros s cs s' r E; cbn [UnloadAll] in E; destruct (plugins s) as [|a l]; try discriminate; try (injection E as <- _; apply quiet_refl).
  destruct (_Unload s a true (cs a)) as [[s1 b]|] eqn:U; [|discriminate]. apply _Unload_quiet in U. destruct (UnloadAll f s1 cs) as [[[s2 b']|]|] eqn:R; try discriminate. injection E as <- _.
  eapply quiet_trans; [exact U|eapply IH; exact R].
Qed.
Lemma all_loop_quiet l : forall s cs s', all_loop s l cs = Some s' -> quiet s s'.
Proof.
  induction l as [|a l IH]; intros s cs s' E; cbn [all_loop] in E; [injection E as <-; apply quiet_refl|].
  destruct (getp s a) as [p|]; [|discriminate]. destruct (p_status p) as [x|]; [|discriminate]. destruct x; try (exact (IH _ _ _ E)).
  destruct (p_api p); [|exact (IH _ _ _ E)]. destruct (call_plugin s a (CAllLoaded a) (cs a)) as [s1|] eqn:C; [|discriminate]. eapply quiet_trans; [eapply call_plugin_quiet; [|exact C]; intros []|exact (IH _ _ _ E)].
Qed.

(** ** The notifications themselves *)
Definition others (s : st) (id : Z) : list listener :=
  flat_map (fun a => match getp s a with Some p => if (p_id p =? id)%Z then [] else p_events p | None => [] end) (plugins s).
Lemma gather_others s id : forall l ls, gather s (fun p => Some (negb (p_id p =? id)%Z)) l = Some ls ->
  ls = flat_map (fun a => match getp s a with Some p => if (p_id p =? id)%Z then [] else p_events p | None => [] end) l.
Proof.
  induction l as [|a l IH]; intros ls E; cbn [gather] in E; [injection E as <-; reflexivity|]. cbn [flat_map]. destruct (getp s a) as [p|]; [|discriminate].
  destruct (gather s _ l) as [r|]; [|discriminate]. injection E as <-. rewrite (IH r eq_refl). destruct (p_id p =? id)%Z; reflexivity.
Qed.
Lemma iter_spec s k id s' : iter_plevent s k id = Some s' ->
  others s' id = others s id /\ log s' = log s ++ map (fun l => CNote l k id) (others s id).
Proof.
  unfold iter_plevent, call_all. destruct (gather s _ (plugins s)) as [ls|] eqn:G; [|discriminate]. destruct (forallb (fun l => is_open s (fst l)) ls); [|discriminate].
  intros E. injection E as <-. apply gather_others in G. split; [reflexivity|]. cbn [say log set_log]. rewrite G. reflexivity.
Qed.
(** One event: other calls first, then each listener of the other plugins. *)
Definition told_others (s s' : st) (k : kind) (id : Z) : Prop :=
  exists pre, log s' = log s ++ pre ++ map (fun l => CNote l k id) (others s' id) /\ (forall c, In c pre -> ~ is_note c).
Lemma told_intro s s1 s' k id : quiet s s1 -> iter_plevent s1 k id = Some s' -> told_others s s' k id.
Proof.
  intros (pre & E & N) I. apply iter_spec in I. destruct I as [O L]. exists pre. rewrite L, E, O, app_assoc. split; [reflexivity|exact N].
Qed.

Lemma Pause_notes s id c s' r : Pause s id c = Some (s', r) -> if r then told_others s s' OnPause id else quiet s s'.
Proof.
  intros E. unfold Pause in E. destruct (find_id s (plugins s) id) as [oa|] eqn:F; [|discriminate]. apply find_id_spec in F.
  destruct oa as [a|]; [|injection E as <- <-; apply quiet_refl]. destruct F as (_ & p & G & Id).
  destruct (_Pause s a c) as [[s1 b]|] eqn:U; [|discriminate]. pose proof (_Pause_quiet _ _ _ _ _ U) as Q.
  destruct b; [|injection E as <- <-; exact Q]. destruct (getp s1 a) as [p1|] eqn:G1; [|discriminate].
  destruct (iter_plevent s1 OnPause (p_id p1)) as [s2|] eqn:It; [|discriminate]. injection E as <- <-.
  assert (E1 : p_id p1 = id); [|rewrite E1 in It; eapply told_intro; eassumption].
  unfold _Pause in U. rewrite G in U. destruct (p_status p) as [x|]; [|discriminate]. destruct x; try discriminate. destruct (p_api p); [|discriminate].
  destruct (call_plugin s a _ (fst c)) as [s3|] eqn:C; [|discriminate]. destruct (snd c); [|discriminate]. apply call_plugin_same in C. destruct (same_getp _ _ _ _ C G) as (p3 & G3 & C3). rewrite G3 in U. injection U as <-.
  rewrite getp_setp_same in G1 by exact (getp_lt _ _ _ G3). injection G1 as <-. cbn [p_id with_status]. rewrite <- Id. exact (core_id _ _ C3).
Qed.
Lemma Unpause_notes s id c s' r : Unpause s id c = Some (s', r) -> if r then told_others s s' OnUnpause id else quiet s s'.
Proof.
  intros E. unfold Unpause in E. destruct (find_id s (plugins s) id) as [oa|] eqn:F; [|discriminate]. apply find_id_spec in F.
  destruct oa as [a|]; [|injection E as <- <-; apply quiet_refl]. destruct F as (_ & p & G & Id).
  destruct (_Unpause s a c) as [[s1 b]|] eqn:U; [|discriminate]. pose proof (_Unpause_quiet _ _ _ _ _ U) as Q.
  destruct b; [|injection E as <- <-; exact Q]. destruct (getp s1 a) as [p1|] eqn:G1; [|discriminate].
  destruct (iter_plevent s1 OnUnpause (p_id p1)) as [s2|] eqn:It; [|discriminate]. injection E as <- <-.
  assert (E1 : p_id p1 = id); [|rewrite E1 in It; eapply told_intro; eassumption].
  unfold _Unpause in U. rewrite G in U. destruct (p_status p) as [x|]; [|discriminate]. destruct x; try discriminate. destruct (p_api p); [|discriminate].
  destruct (call_plugin s a _ (fst c)) as [s3|] eqn:C; [|discriminate]. destruct (snd c); [|discriminate]. apply call_plugin_same in C. destruct (same_getp _ _ _ _ C G) as (p3 & G3 & C3). rewrite G3 in U. injection U as <-.
  rewrite getp_setp_same in G1 by exact (getp_lt _ _ _ G3). injection G1 as <-. cbn [p_id with_status]. rewrite <- Id. exact (core_id _ _ C3).
Qed.
Lemma Unload_notes s id force c s' r : Unload s id force c = Some (s', r) -> if r then told_others s s' OnUnload id else quiet s s'.
Proof.
  intros E. unfold Unload in E. destruct (find_id s (plugins s) id) as [oa|] eqn:F; [|discriminate]. apply find_id_spec in F.
  destruct oa as [a|]; [|injection E as <- <-; apply quiet_refl]. destruct F as (_ & p & G & Id). rewrite G in E.
  destruct (_Unload s a force c) as [[s1 b]|] eqn:U; [|discriminate]. pose proof (_Unload_quiet _ _ _ _ _ _ U) as Q.
  destruct b; [|injection E as <- <-; exact Q]. destruct (iter_plevent s1 OnUnload (p_id p)) as [s2|] eqn:It; [|discriminate]. injection E as <- <-.
  rewrite Id in It. eapply told_intro; eassumption.
Qed.
(** Load: either nothing happens at all, or the new plugin is announced under the id that is returned. *)
Lemma Load_notes s file li s' id al : Load s file li = Some (s', (id, al)) -> log s' = log s \/ told_others s s' OnLoad id.
Proof.
  intros E. unfold Load in E. destruct (load_scan s file (plugins s)) as [[[l al'] e]|]; [|discriminate].
  destruct e as [id'|]; [injection E as <- _ _; left; reflexivity|]. right.
  destruct (_Load (set_plugins l s) file li) as [[s1 a]|] eqn:L; [|discriminate]. apply _Load_quiet in L. destruct (getp s1 a) as [p|]; [|discriminate].
  destruct (iter_plevent s1 OnLoad (p_id p)) as [s2|] eqn:It; [|discriminate]. injection E as <- <- _. eapply told_intro; [|exact It]. eapply quiet_l; [|exact L]. reflexivity.
Qed.
(** Nothing else notifies anyone. *)
Lemma step_quiet s o s' r : step s o = Some (s', r) ->
  match o with OLoad _ _ _ | OUnload _ _ _ | OPause _ _ | OUnpause _ _ => True | _ => quiet s s' end.
Proof.
  destruct o; cbn [step]; auto; intros E.
  - destruct (Retry s id li c) as [[s1 b]|] eqn:L; [|discriminate]. injection E as <- _. eapply Retry_quiet; eassumption.
  - destruct (UnloadAll (length (plugins s)) s cs) as [[[s1 b]|]|] eqn:L; try discriminate. injection E as <- _. eapply UnloadAll_quiet; eassumption.
  - unfold SetAllLoaded in E. destruct (allloaded s); [injection E as <- _; apply quiet_refl|].
    destruct (all_loop (set_allloaded true s) (plugins s) cs) as [s1|] eqn:A; [|discriminate]. injection E as <- _. apply all_loop_quiet in A. eapply quiet_l; [|exact A]. reflexivity.
  - destruct (existsb (Nat.eqb a) (plugins s)); [|injection E as <- _; apply quiet_refl]. destruct (getp s a) as [p|]; [|discriminate]. destruct (p_status p) as [x|]; [|discriminate].
    destruct (loaded x); [|injection E as <- _; apply quiet_refl]. destruct (run_acts a s acts) as [s1|] eqn:R; [|discriminate]. injection E as <- _. eapply run_acts_quiet; exact R.
  - injection E as <- _. apply quiet_eq. reflexivity.
  - destruct (depth s) as [|n]; [injection E as <- _; apply quiet_refl|]. destruct n; [|injection E as <- _; apply quiet_eq; reflexivity].
    unfold resolve_pending in E. destruct (resolve false _ _) as [[s1 l1]|] eqn:R; [|discriminate]. injection E as <- _. apply resolve_quiet in R. cbn [fst snd]. eapply quiet_r; [|eapply quiet_l; [|exact R]]; reflexivity.
  - unfold resolve_pending in E. destruct (resolve true _ _) as [[s1 l1]|] eqn:R; [|discriminate]. injection E as <- _. apply resolve_quiet in R. eapply quiet_r; [|exact R]. reflexivity.
Qed.
