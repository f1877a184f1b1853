(** Basic facts about the plugin manager model. *)
From Coq Require Import List ZArith Bool Arith Ascii Lia.
From Verif Require Import Base ListModel StrModel StrSpec StrProofs PlugModel.
Import ListNotations.
Local Open Scope list_scope.
Local Open Scope nat_scope.
Notation length := List.length.

(** ** Memory *)
Lemma setnth_length {A} (l : list A) : forall n x, length (setnth l n x) = length l.
Proof. induction l as [|y l IH]; intros [|n] x; cbn [setnth List.length]; auto. Qed.
Lemma nth_setnth_same {A} (l : list A) : forall n x, n < length l -> nth_error (setnth l n x) n = Some x.
Proof. induction l as [|y l IH]; intros [|n] x L; cbn [List.length] in L; try lia; cbn [setnth nth_error]; auto. apply IH. lia. Qed.
Lemma nth_setnth_other {A} (l : list A) : forall n m x, n <> m -> nth_error (setnth l n x) m = nth_error l m.
Proof. induction l as [|y l IH]; intros [|n] [|m] x N; cbn [setnth nth_error]; auto; try lia. Qed.
Lemma map_setnth {A B} (f : A -> B) (l : list A) : forall n x, map f (setnth l n x) = setnth (map f l) n (f x).
Proof. induction l as [|y l IH]; intros [|n] x; cbn [setnth map]; auto. rewrite IH. reflexivity. Qed.
Lemma setnth_id {A} (l : list A) : forall n x, nth_error l n = Some x -> setnth l n x = l.
Proof. induction l as [|y l IH]; intros [|n] x E; cbn [setnth nth_error] in *; auto; [congruence|]. rewrite IH by exact E. reflexivity. Qed.

Lemma getp_lt s a p : getp s a = Some p -> a < length (heap s).
Proof. unfold getp. intros H. apply nth_error_Some. destruct (nth_error (heap s) a); congruence. Qed.
Lemma getp_nth s a p : getp s a = Some p <-> nth_error (heap s) a = Some (Some p).
Proof. unfold getp. destruct (nth_error (heap s) a) as [[q|]|]; split; congruence. Qed.
Lemma getp_setp_same s a x : a < length (heap s) -> getp (setp s a x) a = x.
Proof. intros L. unfold getp, setp. cbn [heap set_heap]. rewrite nth_setnth_same by exact L. destruct x; reflexivity. Qed.
Lemma getp_setp_other s a b x : a <> b -> getp (setp s a x) b = getp s b.
Proof. intros N. unfold getp, setp. cbn [heap set_heap]. rewrite nth_setnth_other by exact N. reflexivity. Qed.
Lemma getp_setp s a b x : a < length (heap s) -> getp (setp s a x) b = if b =? a then x else getp s b.
Proof. intros L. destruct (Nat.eqb_spec b a) as [->|N]; [apply getp_setp_same; exact L|apply getp_setp_other; congruence]. Qed.

(** ** Everything but listeners, console objects, hooks and the log *)
Definition core (p : plugin) : plugin := with_cons [] (with_events [] p).
Notation cores h := (map (option_map core) h).
Record same (s s' : st) : Prop := mkSame {
  sm_heap : cores (heap s) = cores (heap s');
  sm_plugins : plugins s = plugins s';
  sm_last : last s = last s';
  sm_all : allloaded s = allloaded s';
  sm_pend : pend s = pend s';
  sm_depth : depth s = depth s';
  sm_libs : libs s = libs s';
  sm_nlib : nlib s = nlib s'
}.
Lemma same_refl s : same s s.
Proof. split; reflexivity. Qed.
Lemma same_trans s1 s2 s3 : same s1 s2 -> same s2 s3 -> same s1 s3.
Proof. intros [] []; split; etransitivity; eassumption. Qed.
Lemma same_say c s : same s (say c s).
Proof. split; reflexivity. Qed.
Lemma same_hooks l s : same s (set_hooks l s).
Proof. split; reflexivity. Qed.
Lemma same_setp s a p q : getp s a = Some p -> core q = core p -> same s (setp s a (Some q)).
Proof.
  intros G E. split; try reflexivity. cbn [setp heap set_heap]. rewrite map_setnth. cbn [option_map]. rewrite E. symmetry. apply setnth_id.
  apply getp_nth in G. rewrite nth_error_map, G. reflexivity.
Qed.
Lemma same_getp s s' a p : same s s' -> getp s a = Some p -> exists p', getp s' a = Some p' /\ core p' = core p.
Proof.
  intros S G. apply getp_nth in G. pose proof (f_equal (fun l => nth_error l a) (sm_heap _ _ S)) as E. cbn beta in E. rewrite !nth_error_map, G in E. cbn [option_map] in E.
  destruct (nth_error (heap s') a) as [[p'|]|] eqn:H; cbn [option_map] in E; try discriminate. exists p'. split; [apply getp_nth; exact H|]. congruence.
Qed.
Lemma same_sym s s' : same s s' -> same s' s.
Proof. intros []; split; symmetry; assumption. Qed.
Lemma same_length s s' : same s s' -> length (heap s) = length (heap s').
Proof. intros S. pose proof (f_equal (@List.length _) (sm_heap _ _ S)) as E. rewrite !map_length in E. exact E. Qed.

Lemma core_id p q : core p = core q -> p_id p = p_id q.
Proof. intros E. exact (f_equal p_id E). Qed.
Lemma core_file p q : core p = core q -> p_file p = p_file q.
Proof. intros E. exact (f_equal p_file E). Qed.
Lemma core_status p q : core p = core q -> p_status p = p_status q.
Proof. intros E. exact (f_equal p_status E). Qed.
Lemma core_api p q : core p = core q -> p_api p = p_api q.
Proof. intros E. exact (f_equal p_api E). Qed.
Lemma core_lib p q : core p = core q -> p_lib p = p_lib q.
Proof. intros E. exact (f_equal p_lib E). Qed.
Lemma core_ufn p q : core p = core q -> p_ufn p = p_ufn q.
Proof. intros E. exact (f_equal p_ufn E). Qed.
Lemma core_told p q : core p = core q -> p_told p = p_told q.
Proof. intros E. exact (f_equal p_told E). Qed.
Lemma core_ver p q : core p = core q -> p_ver p = p_ver q.
Proof. intros E. exact (f_equal p_ver E). Qed.

Lemma call_all_same s sel mk s' : call_all s sel mk = Some s' -> same s s'.
Proof.
  unfold call_all. destruct (gather s sel (plugins s)) as [ls|]; [|discriminate]. destruct (forallb (fun l => is_open s (fst l)) ls); [|discriminate]. intros E. injection E as <-. apply same_say.
Qed.
Lemma unregister_same s id c s' : unregister s id c = Some s' -> same s s'.
Proof. apply call_all_same. Qed.
Lemma iter_same s k id s' : iter_plevent s k id = Some s' -> same s s'.
Proof. apply call_all_same. Qed.
Lemma unreg_list_same cs : forall s id s', unreg_list s id cs = Some s' -> same s s'.
Proof.
  induction cs as [|c cs IH]; intros s id s' E; cbn [unreg_list] in E; [injection E as <-; apply same_refl|].
  destruct (unregister s id c) as [s1|] eqn:U; [|discriminate]. eapply same_trans; [eapply unregister_same; exact U|]. eapply IH. exact E.
Qed.
Lemma unreg_all_same s a s' : unreg_all s a = Some s' -> same s s'.
Proof.
  unfold unreg_all. destruct (getp s a) as [p|] eqn:G; [|discriminate]. destruct (unreg_list s (p_id p) (p_cons p)) as [s1|] eqn:U; [|discriminate].
  destruct (getp s1 a) as [p1|] eqn:G1; [|discriminate]. intros E. injection E as <-. eapply same_trans; [eapply unreg_list_same; exact U|].
  eapply same_setp; [exact G1|reflexivity].
Qed.
Lemma run_act_same a s x s' : run_act a s x = Some s' -> same s s'.
Proof.
  unfold run_act. destruct (getp s a) as [p|] eqn:G; [|discriminate]. destruct (p_api p) as [api|]; [|discriminate]. destruct (p_lib p) as [lib|]; [|discriminate].
  destruct x as [h|h|l|c|c].
  - intros E. injection E as <-. apply same_hooks.
  - intros E. injection E as <-. apply same_hooks.
  - destruct (find_api s (plugins s) api) as [[b|]|]; try discriminate. destruct (getp s b) as [q|] eqn:Q; [|discriminate]. intros E. injection E as <-. eapply same_setp; [exact Q|reflexivity].
  - destruct (find_api s (plugins s) api) as [[b|]|]; try discriminate.
    + destruct (getp s b) as [q|] eqn:Q; [|discriminate]. intros E. injection E as <-. eapply same_setp; [exact Q|reflexivity].
    + intros E. injection E as <-. apply same_refl.
  - destruct (find_api s (plugins s) api) as [[b|]|]; try discriminate.
    + destruct (getp s b) as [q|] eqn:Q; [|discriminate]. intros E. eapply same_trans; [|eapply unregister_same; exact E]. eapply same_setp; [exact Q|reflexivity].
    + apply unregister_same.
Qed.
Lemma run_acts_same a l : forall s s', run_acts a s l = Some s' -> same s s'.
Proof.
  induction l as [|x l IH]; intros s s' E; cbn [run_acts] in E; [injection E as <-; apply same_refl|].
  destruct (run_act a s x) as [s1|] eqn:U; [|discriminate]. eapply same_trans; [eapply run_act_same; exact U|]. eapply IH. exact E.
Qed.
Lemma call_plugin_same s a c acts s' : call_plugin s a c acts = Some s' -> same s s'.
Proof.
  unfold call_plugin. destruct (getp s a); [|discriminate]. destruct (callable s p); [|discriminate]. intros E. eapply same_trans; [apply same_say|]. eapply run_acts_same. exact E.
Qed.

(** ** What stays the same for the plugins in the list *)
Definition vw (p : plugin) := (p_id p, p_file p, p_status p).
Definition pendok (s : st) : Prop :=
  forall u, In u (pend s) -> u_addr u < length (heap s) /\ (u_destroy u = true -> ~ In (u_addr u) (plugins s)).
Record frame (s s' : st) : Prop := mkFrame {
  fr_get : forall b p, In b (plugins s) -> getp s b = Some p -> exists p', getp s' b = Some p' /\ vw p' = vw p;
  fr_len : length (heap s) <= length (heap s');
  fr_plugins : plugins s' = plugins s;
  fr_last : last s' = last s;
  fr_all : allloaded s' = allloaded s;
  fr_depth : depth s' = depth s;
  fr_pend : pendok s -> pendok s'
}.
Lemma core_vw p q : core p = core q -> vw p = vw q.
Proof. intros E. unfold vw. rewrite (core_id _ _ E), (core_file _ _ E), (core_status _ _ E). reflexivity. Qed.
Lemma frame_refl s : frame s s.
Proof. split; auto. eauto. Qed.
Lemma frame_trans s1 s2 s3 : frame s1 s2 -> frame s2 s3 -> frame s1 s3.
Proof.
  intros [A1 A2 A3 A4 A5 A6 A7] [B1 B2 B3 B4 B5 B6 B7]. split; try congruence; try lia; auto.
  intros b p I G. destruct (A1 b p I G) as (p1 & G1 & V1). rewrite A3 in B1. destruct (B1 b p1 I G1) as (p2 & G2 & V2). exists p2. split; [exact G2|congruence].
Qed.
Lemma same_frame s s' : same s s' -> frame s s'.
Proof.
  intros S. pose proof (same_length _ _ S) as L. split; try (symmetry; apply S); try lia.
  - intros b p _ G. destruct (same_getp _ _ _ _ S G) as (p' & G' & E). exists p'. split; [exact G'|apply core_vw; exact E].
  - intros P u I. rewrite <- (sm_pend _ _ S) in I. destruct (P u I) as [P1 P2]. rewrite <- (sm_plugins _ _ S). split; [lia|exact P2].
Qed.
Lemma ready_spec s a d s' : ready s a d = Some s' ->
  exists p, getp s a = Some p /\
    heap s' = setnth (heap s) a (if d then None else Some (with_lib None (p_ver p) None (p_ufn p) p)) /\
    plugins s' = plugins s /\ last s' = last s /\ allloaded s' = allloaded s /\ hooks s' = hooks s /\ pend s' = pend s /\
    depth s' = depth s /\ nlib s' = nlib s /\
    libs s' = match p_lib p with Some h => filter (fun x => negb (x =? h)) (libs s) | None => libs s end /\
    log s' = log s ++ (match p_ufn p with Some _ => [CUnloadFn a] | None => [] end) /\
    (forall h, p_ufn p = Some h -> is_open s h = true) /\ (forall h, p_lib p = Some h -> is_open s h = true).
Proof.
  unfold ready. destruct (getp s a) as [p|] eqn:G; [|discriminate]. intros E. exists p. split; [reflexivity|].
  destruct (p_ufn p) as [h1|] eqn:U.
  - destruct (is_open s h1) eqn:O1; [|discriminate].
    destruct (p_lib p) as [h2|] eqn:L.
    + change (is_open (say [CUnloadFn a] s) h2) with (is_open s h2) in E. destruct (is_open s h2) eqn:O2; [|discriminate].
      destruct d; injection E as <-; cbn; repeat split; auto; intros h Hh; congruence.
    + destruct d; injection E as <-; cbn; repeat split; auto; intros h Hh; congruence.
  - destruct (p_lib p) as [h2|] eqn:L.
    + destruct (is_open s h2) eqn:O2; [|discriminate].
      destruct d; injection E as <-; cbn; rewrite ?app_nil_r; repeat split; auto; intros h Hh; congruence.
    + destruct d; injection E as <-; cbn; rewrite ?app_nil_r; repeat split; auto; intros h Hh; congruence.
Qed.
Lemma ready_frame s a d s' : ready s a d = Some s' -> (d = true -> ~ In a (plugins s)) -> frame s s'.
Proof.
  intros R N. destruct (ready_spec s a d s' R) as (p & G & H & H1 & H2 & H3 & _ & H5 & H6 & _).
  pose proof (getp_lt _ _ _ G) as L.
  split; auto.
  - intros b q I Q. unfold getp. rewrite H. destruct (Nat.eq_dec a b) as [<-|Ne].
    + rewrite nth_setnth_same by exact L. destruct d; [elim (N eq_refl I)|]. rewrite G in Q. injection Q as <-. eexists. split; [reflexivity|]. reflexivity.
    + rewrite nth_setnth_other by exact Ne. apply getp_nth in Q. rewrite Q. exists q. auto.
  - rewrite H, setnth_length. lia.
  - intros P u I. rewrite H5 in I. rewrite H, setnth_length, H1. apply P. exact I.
Qed.
Lemma frame_hooks l s : frame s (set_hooks l s).
Proof. apply same_frame, same_hooks. Qed.
Lemma sh_unload_frame s plug a d s' : sh_unload s plug a d = Some s' -> a < length (heap s) -> (d = true -> ~ In a (plugins s)) -> frame s s'.
Proof.
  unfold sh_unload. cbn [depth set_hooks]. intros E L N. eapply frame_trans; [apply (frame_hooks (filter (fun k => negb (h_plug k =? plug)%Z) (hooks s)))|].
  destruct (depth s =? 0).
  - eapply ready_frame; [exact E|exact N].
  - injection E as <-. split; auto.
    + intros b p I G. exists p. auto.
    + intros P u I. cbn [pend set_pend set_hooks] in I. apply in_app_or in I. destruct I as [I|[<-|[]]]; [exact (P u I)|]. cbn [u_addr u_destroy]. split; [exact L|exact N].
Qed.
Lemma resolve_frame force l : forall s s' l', resolve force s l = Some (s', l') ->
  (forall u, In u l -> u_destroy u = true -> ~ In (u_addr u) (plugins s)) ->
  frame s s' /\ (forall u, In u l' -> exists v, In v l /\ u_addr v = u_addr u /\ u_destroy v = u_destroy u).
Proof.
  induction l as [|u l IH]; intros s s' l' E N; cbn [resolve] in E.
  - injection E as <- <-. split; [apply frame_refl|]. intros u [].
  - destruct (negb force && negb (u_deactivated u)) eqn:D.
    + destruct (resolve force s l) as [[s1 l1]|] eqn:R; [|discriminate]. injection E as <- <-. cbn [fst snd].
      destruct (IH s s1 l1 R) as [F1 F2]; [intros v I; apply N; right; exact I|]. split; [exact F1|].
      intros v [<-|I]; [exists u; split; [left; reflexivity|auto]|]. destruct (F2 v I) as (w & W & Ew). exists w. split; [right; exact W|exact Ew].
    + destruct (ready s (u_addr u) (u_destroy u)) as [s1|] eqn:R; [|discriminate].
      pose proof (ready_frame _ _ _ _ R (N u (or_introl eq_refl))) as F. destruct (IH s1 s' l' E) as [F1 F2].
      * intros v I D2. rewrite (fr_plugins _ _ F). apply N; [right; exact I|exact D2].
      * split; [eapply frame_trans; eassumption|]. intros v I. destruct (F2 v I) as (w & W & Ew). exists w. split; [right; exact W|exact Ew].
Qed.
Lemma resolve_pending_frame force s s' : pendok s -> resolve_pending force s = Some s' -> frame s s' /\ pendok s'.
Proof.
  unfold resolve_pending. destruct (resolve force s (pend s)) as [[s1 l1]|] eqn:R; [|discriminate]. intros P E. injection E as <-. cbn [fst snd].
  destruct (resolve_frame _ _ _ _ _ R) as [F1 F2]; [intros u I D; exact (proj2 (P u I) D)|].
  assert (PK : pendok (set_pend l1 s1)).
  { intros u I. cbn [pend set_pend] in I. destruct (F2 u I) as (v & V & E1 & E2). destruct (P v V) as [P1 P2]. cbn [heap plugins set_pend]. rewrite (fr_plugins _ _ F1), <- E1, <- E2.
    split; [pose proof (fr_len _ _ F1); lia|exact P2]. }
  split; [|exact PK]. destruct F1. split; auto.
Qed.

(** ** The invariant of the list *)
Record Inv (s : st) : Prop := mkInv {
  iv_nodup : NoDup (plugins s);
  iv_get : forall a, In a (plugins s) -> exists p, getp s a = Some p;
  iv_id : forall a p, In a (plugins s) -> getp s a = Some p -> (1 <= p_id p < last s)%Z;
  iv_ids : forall a b p q, In a (plugins s) -> In b (plugins s) -> getp s a = Some p -> getp s b = Some q -> p_id p = p_id q -> a = b;
  iv_last : (1 <= last s)%Z;
  iv_pend : pendok s
}.
Definition St (s : st) : Prop := forall a p, In a (plugins s) -> getp s a = Some p -> p_status p <> None.
Definition Fi (s : st) : Prop := forall a b p q, In a (plugins s) -> In b (plugins s) -> getp s a = Some p -> getp s b = Some q ->
  collapse (p_file p) = collapse (p_file q) -> a = b.

Lemma frame_back s s' a p' : Inv s -> frame s s' -> In a (plugins s) -> getp s' a = Some p' -> exists p, getp s a = Some p /\ vw p' = vw p.
Proof.
  intros I F Ia G. destruct (iv_get _ I a Ia) as (p & Gp). destruct (fr_get _ _ F a p Ia Gp) as (q & Q & V). exists p. split; [exact Gp|]. congruence.
Qed.
Lemma vw_id p q : vw p = vw q -> p_id p = p_id q.
Proof. unfold vw. congruence. Qed.
Lemma vw_file p q : vw p = vw q -> p_file p = p_file q.
Proof. unfold vw. congruence. Qed.
Lemma vw_status p q : vw p = vw q -> p_status p = p_status q.
Proof. unfold vw. congruence. Qed.
Lemma Inv_frame s s' : frame s s' -> Inv s -> Inv s'.
Proof.
  intros F I. pose proof (fr_plugins _ _ F) as P. pose proof (fr_last _ _ F) as L. split.
  - rewrite P. apply I.
  - rewrite P. intros a Ia. destruct (iv_get _ I a Ia) as (p & G). destruct (fr_get _ _ F a p Ia G) as (p' & G' & _). eauto.
  - rewrite P, L. intros a p Ia G. destruct (frame_back _ _ _ _ I F Ia G) as (q & Q & V). rewrite (vw_id _ _ V). exact (iv_id _ I a q Ia Q).
  - rewrite P. intros a b p q Ia Ib Ga Gb E. destruct (frame_back _ _ _ _ I F Ia Ga) as (p1 & P1 & V1). destruct (frame_back _ _ _ _ I F Ib Gb) as (q1 & Q1 & V2).
    apply (iv_ids _ I a b p1 q1); auto. rewrite <- (vw_id _ _ V1), <- (vw_id _ _ V2). exact E.
  - rewrite L. apply I.
  - apply (fr_pend _ _ F). apply I.
Qed.
Lemma St_frame s s' : Inv s -> frame s s' -> St s -> St s'.
Proof.
  intros I F S a p Ia G. rewrite (fr_plugins _ _ F) in Ia. destruct (frame_back _ _ _ _ I F Ia G) as (q & Q & V). rewrite (vw_status _ _ V). exact (S a q Ia Q).
Qed.
Lemma Fi_frame s s' : Inv s -> frame s s' -> Fi s -> Fi s'.
Proof.
  intros I F S a b p q Ia Ib Ga Gb E. rewrite (fr_plugins _ _ F) in Ia, Ib. destruct (frame_back _ _ _ _ I F Ia Ga) as (p1 & P1 & V1). destruct (frame_back _ _ _ _ I F Ib Gb) as (q1 & Q1 & V2).
  apply (S a b p1 q1); auto. rewrite <- (vw_file _ _ V1), <- (vw_file _ _ V2). exact E.
Qed.
Lemma Inv_init : Inv init /\ St init /\ Fi init.
Proof.
  split; [split|split].
  - constructor.
  - intros a [].
  - intros a p [].
  - intros a b p q [].
  - cbn. lia.
  - intros u [].
  - intros a p [].
  - intros a b p q [].
Qed.

(** Replacing the list by a part of it. *)
Lemma Inv_sub s l : Inv s -> NoDup l -> (forall a, In a l -> In a (plugins s)) -> Inv (set_plugins l s).
Proof.
  intros I N S. split; cbn [plugins last set_plugins]; auto.
  - intros a Ia. apply (iv_get _ I). auto.
  - intros a p Ia G. apply (iv_id _ I a p); auto.
  - intros a b p q Ia Ib. apply (iv_ids _ I); auto.
  - apply I.
  - intros u Iu. cbn [pend heap plugins set_plugins] in *. destruct (iv_pend _ I u Iu) as [P1 P2]. split; [exact P1|]. intros D X. exact (P2 D (S _ X)).
Qed.
(** Changing the status of a plugin of the list. *)
Lemma setp_status_Inv s a p x : In a (plugins s) -> getp s a = Some p -> Inv s ->
  Inv (setp s a (Some (with_status x p))).
Proof.
  intros Ia G I. pose proof (getp_lt _ _ _ G) as L.
  assert (B : forall b q, getp (setp s a (Some (with_status x p))) b = Some q -> exists q0, getp s b = Some q0 /\ p_id q = p_id q0 /\ p_file q = p_file q0).
  { intros b q. rewrite getp_setp by exact L. destruct (Nat.eqb_spec b a) as [->|N]; intros E; [|exists q; auto]. injection E as <-. exists p. auto. }
  split; cbn [plugins last setp set_heap]; try apply I.
  - intros b Ib. rewrite getp_setp by exact L. destruct (b =? a); [eauto|]. apply (iv_get _ I). exact Ib.
  - intros b q Ib Q. destruct (B b q Q) as (q0 & Q0 & E & _). rewrite E. apply (iv_id _ I b q0); auto.
  - intros b c q r Ib Ic Q R E. destruct (B b q Q) as (q0 & Q0 & E1 & _). destruct (B c r R) as (r0 & R0 & E2 & _). apply (iv_ids _ I b c q0 r0); auto. congruence.
  - intros u Iu. cbn [pend heap plugins set_heap setp]. rewrite setnth_length. apply (iv_pend _ I). exact Iu.
Qed.

(** find and erase *)
Lemma find_id_spec s l id r : find_id s l id = Some r ->
  match r with
  | Some a => In a l /\ exists p, getp s a = Some p /\ p_id p = id
  | None => forall a p, In a l -> getp s a = Some p -> p_id p <> id
  end.
Proof.
  revert r. induction l as [|a l IH]; intros r E; cbn [find_id] in E.
  - injection E as <-. intros a p [].
  - destruct (getp s a) as [p|] eqn:G; [|discriminate]. destruct (Z.eqb_spec (p_id p) id) as [X|X].
    + injection E as <-. split; [left; reflexivity|]. eauto.
    + specialize (IH r E). destruct r as [b|].
      * destruct IH as [I J]. split; [right; exact I|exact J].
      * intros b q [<-|I] Q; [congruence|]. exact (IH b q I Q).
Qed.
Lemma find_id_total s l id : (forall a, In a l -> exists p, getp s a = Some p) -> exists r, find_id s l id = Some r.
Proof.
  induction l as [|a l IH]; intros T; cbn [find_id]; [eauto|]. destruct (T a (or_introl eq_refl)) as (p & ->). destruct (p_id p =? id)%Z; [eauto|]. apply IH. intros b I. apply T. right. exact I.
Qed.
Lemma erase_id_spec s l id l' : erase_id s l id = Some l' ->
  (exists l1 a l2 p, l = l1 ++ a :: l2 /\ l' = l1 ++ l2 /\ getp s a = Some p /\ p_id p = id /\
     (forall b q, In b l1 -> getp s b = Some q -> p_id q <> id)) \/
  (l' = l /\ forall b q, In b l -> getp s b = Some q -> p_id q <> id).
Proof.
  revert l'. induction l as [|a l IH]; intros l' E; cbn [erase_id] in E.
  - injection E as <-. right. split; [reflexivity|]. intros b q [].
  - destruct (getp s a) as [p|] eqn:G; [|discriminate]. destruct (Z.eqb_spec (p_id p) id) as [X|X].
    + injection E as <-. left. exists [], a, l, p. repeat split; auto.
    + destruct (erase_id s l id) as [r|]; [|discriminate]. injection E as <-. destruct (IH r eq_refl) as [(l1 & b & l2 & q & -> & -> & Q & I & N)|[-> N]].
      * left. exists (a :: l1), b, l2, q. repeat split; auto. intros c r [<-|Ic] R; [congruence|]. exact (N c r Ic R).
      * right. split; [reflexivity|]. intros c r [<-|Ic] R; [congruence|]. exact (N c r Ic R).
Qed.
Lemma erase_id_total s l id : (forall a, In a l -> exists p, getp s a = Some p) -> exists r, erase_id s l id = Some r.
Proof.
  induction l as [|a l IH]; intros T; cbn [erase_id]; [eauto|]. destruct (T a (or_introl eq_refl)) as (p & ->). destruct (p_id p =? id)%Z; [eauto|].
  destruct IH as (r & ->); [intros b I; apply T; right; exact I|]. eauto.
Qed.
(** With distinct ids exactly the plugin itself is erased. *)
Lemma erase_own s a p l : Inv s -> In a (plugins s) -> getp s a = Some p -> erase_id s (plugins s) (p_id p) = Some l ->
  exists l1 l2, plugins s = l1 ++ a :: l2 /\ l = l1 ++ l2.
Proof.
  intros I Ia G E. apply erase_id_spec in E. destruct E as [(l1 & b & l2 & q & E1 & E2 & Q & Iq & _)|[_ N]].
  - assert (b = a); [|subst b; eauto]. apply (iv_ids _ I b a q p); auto. rewrite E1. apply in_elt.
  - exfalso. exact (N a p Ia G eq_refl).
Qed.

Lemma NoDup_snoc {A} (l : list A) a : NoDup l -> ~ In a l -> NoDup (l ++ [a]).
Proof. induction 1 as [|b l N ND IH]; intros NI; cbn [app]; [repeat constructor; intros []|]. constructor.
  - rewrite in_app_iff. cbn [In]. intros [X|[X|[]]]; [exact (N X)|]. apply NI. left. auto.
  - apply IH. intros X. apply NI. right. exact X.
Qed.

(** ** Loading *)
Record frame1 (a : nat) (s s' : st) : Prop := mkFrame1 {
  f1_get : forall b p, In b (plugins s) -> getp s b = Some p ->
             exists p', getp s' b = Some p' /\ p_id p' = p_id p /\ p_file p' = p_file p /\ (b <> a -> p_status p' = p_status p);
  f1_len : length (heap s) <= length (heap s');
  f1_plugins : plugins s' = plugins s;
  f1_last : last s' = last s;
  f1_all : allloaded s' = allloaded s;
  f1_depth : depth s' = depth s;
  f1_pend : pendok s -> pendok s'
}.
Lemma frame_frame1 a s s' : frame s s' -> frame1 a s s'.
Proof.
  intros F. split; try apply F. intros b p I G. destruct (fr_get _ _ F b p I G) as (p' & G' & V). exists p'. split; [exact G'|]. unfold vw in V. injection V as V1 V2 V3. auto.
Qed.
Lemma frame1_trans a s1 s2 s3 : frame1 a s1 s2 -> frame1 a s2 s3 -> frame1 a s1 s3.
Proof.
  intros [A1 A2 A3 A4 A5 A6 A7] [B1 B2 B3 B4 B5 B6 B7]. split; try congruence; try lia; auto.
  intros b p I G. destruct (A1 b p I G) as (p1 & G1 & V1 & V2 & V3). rewrite A3 in B1. destruct (B1 b p1 I G1) as (p2 & G2 & W1 & W2 & W3). exists p2.
  split; [exact G2|]. split; [congruence|]. split; [congruence|]. intros N. rewrite W3, V3 by exact N. reflexivity.
Qed.
Lemma frame1_setp a s p q : getp s a = Some p -> p_id q = p_id p -> p_file q = p_file p -> frame1 a s (setp s a (Some q)).
Proof.
  intros G E1 E2. pose proof (getp_lt _ _ _ G) as L. split; try reflexivity.
  - intros b r Ib R. rewrite getp_setp by exact L. destruct (Nat.eqb_spec b a) as [->|N]; [|eauto]. exists q. rewrite G in R. injection R as <-. split; [reflexivity|]. split; [exact E1|]. split; [exact E2|congruence].
  - cbn [heap setp set_heap]. rewrite setnth_length. lia.
  - intros P u I. cbn [pend heap plugins set_heap setp]. rewrite setnth_length. apply P. exact I.
Qed.
Lemma Inv_frame1 a s s' : frame1 a s s' -> Inv s -> Inv s'.
Proof.
  intros F I. pose proof (f1_plugins _ _ _ F) as P. pose proof (f1_last _ _ _ F) as L.
  assert (B : forall b q, In b (plugins s) -> getp s' b = Some q -> exists q0, getp s b = Some q0 /\ p_id q = p_id q0).
  { intros b q Ib Q. destruct (iv_get _ I b Ib) as (q0 & Q0). destruct (f1_get _ _ _ F b q0 Ib Q0) as (q1 & Q1 & E & _). exists q0. split; [exact Q0|]. congruence. }
  split.
  - rewrite P. apply I.
  - rewrite P. intros b Ib. destruct (iv_get _ I b Ib) as (p & G). destruct (f1_get _ _ _ F b p Ib G) as (p' & G' & _). eauto.
  - rewrite P, L. intros b p Ib G. destruct (B b p Ib G) as (q & Q & E). rewrite E. exact (iv_id _ I b q Ib Q).
  - rewrite P. intros b c p q Ib Ic Gb Gc E. destruct (B b p Ib Gb) as (p0 & P0 & E0). destruct (B c q Ic Gc) as (q0 & Q0 & E1). apply (iv_ids _ I b c p0 q0); auto. congruence.
  - rewrite L. apply I.
  - apply (f1_pend _ _ _ F). apply I.
Qed.

Lemma load_lib_frame1 s a li s' p0 : In a (plugins s) -> getp s a = Some p0 -> load_lib s a li = Some s' ->
  frame1 a s s' /\ exists p x, getp s' a = Some p /\ p_status p = Some x.
Proof.
  intros Ia G0 E. unfold load_lib in E.
  set (s1 := set_nlib (S (nlib s)) (set_libs (libs s ++ [nlib s]) s)) in *.
  set (api1 := if li_fnload li then li_api1 li else None) in *.
  set (ufn := if li_fnload li && li_ufn li then Some (nlib s) else None) in *.
  set (api := match api1 with Some _ => api1 | None => if li_pfn li then li_api2 li else None end) in *.
  assert (F0 : frame1 a s s1).
  { split; try reflexivity. intros b p I G. exists p. auto. auto. }
  change (getp s1 a) with (getp s a) in E. rewrite G0 in E.
  set (p1 := with_lib api (li_ver li) (Some (nlib s)) ufn p0) in *.
  assert (SET : forall q, p_id q = p_id p0 -> p_file q = p_file p0 -> forall x, p_status q = Some x ->
            frame1 a s (setp s1 a (Some q)) /\ exists p x, getp (setp s1 a (Some q)) a = Some p /\ p_status p = Some x).
  { intros q E1 E2 x Sx. split; [eapply frame1_trans; [exact F0|]; apply (frame1_setp a s1 p0); auto|]. exists q, x. split; [|exact Sx].
    apply getp_setp_same. apply (getp_lt s1 a p0). exact G0. }
  destruct api as [api'|] eqn:Eapi.
  2:{ injection E as <-. apply (SET (with_status Error p1) eq_refl eq_refl Error eq_refl). }
  destruct ((li_ver li <? PLAPI_MIN_VERSION)%Z || (METAMOD_PLAPI_VERSION <? li_ver li)%Z).
  { injection E as <-. apply (SET (with_status Error p1) eq_refl eq_refl Error eq_refl). }
  set (s2 := setp s1 a (Some (with_told (Some (p_id p1)) p1))) in *.
  assert (G2 : getp s2 a = Some (with_told (Some (p_id p1)) p1)) by (apply getp_setp_same; apply (getp_lt s1 a p0); exact G0).
  assert (F2 : frame1 a s s2) by (eapply frame1_trans; [exact F0|]; apply (frame1_setp a s1 p0); auto).
  destruct (call_plugin s2 a _ (fst (li_load li))) as [s3|] eqn:C; [|discriminate].
  apply call_plugin_same in C. destruct (same_getp _ _ _ _ C G2) as (p3 & G3 & C3). rewrite G3 in E.
  assert (F3 : frame1 a s s3) by (eapply frame1_trans; [exact F2|]; apply frame_frame1, same_frame, C).
  assert (I3 : p_id p3 = p_id p0 /\ p_file p3 = p_file p0) by (split; [exact (core_id _ _ C3)|exact (core_file _ _ C3)]).
  assert (F4 : forall x, frame1 a s (setp s3 a (Some (with_status x p3)))).
  { intros x. eapply frame1_trans; [exact F3|]. apply (frame1_setp a s3 p3); auto. }
  assert (G4 : forall x, getp (setp s3 a (Some (with_status x p3))) a = Some (with_status x p3)).
  { intros x. apply getp_setp_same. eapply getp_lt. exact G3. }
  destruct (snd (li_load li)).
  - destruct (allloaded (setp s3 a (Some (with_status Running p3)))).
    + apply call_plugin_same in E. split; [eapply frame1_trans; [apply (F4 Running)|]; apply frame_frame1, same_frame, E|].
      destruct (same_getp _ _ _ _ E (G4 Running)) as (p5 & G5 & C5). exists p5, Running. split; [exact G5|]. exact (core_status _ _ C5).
    + injection E as <-. split; [apply F4|]. eexists _, Running. split; [apply G4|reflexivity].
  - injection E as <-. split; [apply F4|]. eexists _, Refused. split; [apply G4|reflexivity].
Qed.

Definition newp (s : st) (file : str) : plugin := mkP (last s) file None None 0 None None None [] [].
Definition added (s : st) (file : str) : st :=
  set_last (last s + 1) (set_plugins (plugins s ++ [length (heap s)]) (set_heap (heap s ++ [Some (newp s file)]) s)).
Lemma added_get s file b : getp (added s file) b = if b =? length (heap s) then Some (newp s file) else getp s b.
Proof.
  unfold getp, added. cbn [heap set_last set_plugins set_heap]. destruct (Nat.eqb_spec b (length (heap s))) as [->|N].
  - rewrite nth_error_app2, Nat.sub_diag by lia. reflexivity.
  - destruct (lt_dec b (length (heap s))) as [L|L].
    + rewrite nth_error_app1 by exact L. reflexivity.
    + rewrite (proj2 (nth_error_None (heap s ++ [Some (newp s file)]) b)); [|rewrite app_length; cbn [List.length]; lia].
      rewrite (proj2 (nth_error_None (heap s) b)) by lia. reflexivity.
Qed.
Lemma listed_lt s a : Inv s -> In a (plugins s) -> a < length (heap s).
Proof. intros I Ia. destruct (iv_get _ I a Ia) as (p & G). eapply getp_lt. exact G. Qed.
Lemma added_Inv s file : Inv s -> Inv (added s file).
Proof.
  intros I. assert (FR : forall b, In b (plugins s) -> b =? length (heap s) = false).
  { intros b Ib. apply Nat.eqb_neq. pose proof (listed_lt s b I Ib). lia. }
  assert (SP : forall b p, In b (plugins (added s file)) -> getp (added s file) b = Some p ->
     (b = length (heap s) /\ p = newp s file) \/ (In b (plugins s) /\ getp s b = Some p)).
  { intros b p Ib G. cbn [plugins added set_last set_plugins set_heap] in Ib. rewrite added_get in G. apply in_app_or in Ib. destruct Ib as [Ib|[<-|[]]].
    - rewrite (FR b Ib) in G. right. auto.
    - rewrite Nat.eqb_refl in G. left. split; congruence. }
  split.
  - cbn [plugins added set_last set_plugins set_heap]. apply NoDup_snoc; [apply I|]. intros Ib. pose proof (listed_lt s _ I Ib). lia.
  - intros b Ib. rewrite added_get. destruct (b =? length (heap s)) eqn:E; [eauto|]. apply (iv_get _ I). cbn [plugins added set_last set_plugins set_heap] in Ib. apply in_app_or in Ib.
    destruct Ib as [Ib|[<-|[]]]; [exact Ib|]. rewrite Nat.eqb_refl in E. discriminate.
  - intros b p Ib G. cbn [last added set_last]. pose proof (iv_last _ I). destruct (SP b p Ib G) as [[-> ->]|[Ib' G']]; [cbn [p_id newp]; lia|]. pose proof (iv_id _ I b p Ib' G'). lia.
  - intros b c p q Ib Ic G H E. destruct (SP b p Ib G) as [[-> ->]|[Ib' G']], (SP c q Ic H) as [[-> ->]|[Ic' H']]; auto.
    + pose proof (iv_id _ I c q Ic' H'). cbn [p_id newp] in E. lia.
    + pose proof (iv_id _ I b p Ib' G'). cbn [p_id newp] in E. lia.
    + exact (iv_ids _ I b c p q Ib' Ic' G' H' E).
  - cbn [last added set_last]. pose proof (iv_last _ I). lia.
  - intros u Iu. cbn [pend heap plugins added set_last set_plugins set_heap] in *. destruct (iv_pend _ I u Iu) as [P1 P2]. rewrite app_length. cbn [List.length]. split; [lia|].
    intros D X. apply in_app_or in X. destruct X as [X|[X|[]]]; [exact (P2 D X)|lia].
Qed.

Lemma _Load_spec s file li s' a : Inv s -> _Load s file li = Some (s', a) ->
  a = length (heap s) /\ Inv s' /\ plugins s' = plugins s ++ [a] /\ last s' = (last s + 1)%Z /\
  allloaded s' = allloaded s /\ depth s' = depth s /\
  (forall b p, In b (plugins s) -> getp s b = Some p -> exists p', getp s' b = Some p' /\ vw p' = vw p) /\
  exists p x, getp s' a = Some p /\ p_id p = last s /\ p_file p = file /\ p_status p = Some x.
Proof.
  intros I E. unfold _Load in E. fold (newp s file) in E. fold (added s file) in E.
  set (a0 := length (heap s)) in *. set (s1 := added s file) in *.
  pose proof (added_Inv s file I) as I1. fold s1 in I1.
  assert (G1 : getp s1 a0 = Some (newp s file)) by (unfold s1; rewrite added_get; unfold a0; rewrite Nat.eqb_refl; reflexivity).
  assert (L1 : In a0 (plugins s1)) by (cbn; apply in_elt).
  set (e := if ends_with file so_ext && li_exists li then _ else _) in E.
  assert (X : forall s2, e = Some s2 -> frame1 a0 s1 s2 /\ exists p x, getp s2 a0 = Some p /\ p_status p = Some x).
  { unfold e. intros s2. destruct (ends_with file so_ext && li_exists li); [destruct (li_dl li)|].
    - intros R. exact (load_lib_frame1 s1 a0 li s2 _ L1 G1 R).
    - intros R. injection R as <-. split; [apply (frame1_setp a0 s1 (newp s file)); auto|]. eexists _, Error. split; [apply getp_setp_same; eapply getp_lt; exact G1|reflexivity].
    - intros R. injection R as <-. split; [apply (frame1_setp a0 s1 (newp s file)); auto|]. eexists _, NotFound. split; [apply getp_setp_same; eapply getp_lt; exact G1|reflexivity]. }
  destruct e as [s2|]; [|discriminate]. destruct (X s2 eq_refl) as [F (p & x & G2 & S2)]. rewrite G2, S2 in E.
  assert (F' : frame s2 s' /\ a = a0).
  { destruct ((match p_lib p with Some _ => true | None => false end) && negb (loaded x)).
    - destruct (unreg_all (setp s2 a0 (Some (with_events [] p))) a0) as [s3|] eqn:U; [|discriminate].
      destruct (sh_unload s3 (p_id p) a0 false) as [s4|] eqn:H; [|discriminate]. injection E as <- <-. split; [|reflexivity].
      assert (F1 : frame s2 (setp s2 a0 (Some (with_events [] p)))) by (apply same_frame; eapply same_setp; [exact G2|reflexivity]).
      apply unreg_all_same, same_frame in U.
      assert (F3 : frame s2 s3) by (eapply frame_trans; eassumption). eapply frame_trans; [exact F3|]. eapply sh_unload_frame; [exact H| |discriminate].
      pose proof (fr_len _ _ F3). pose proof (getp_lt _ _ _ G2). lia.
    - injection E as <- <-. split; [apply frame_refl|reflexivity]. }
  destruct F' as [F' ->]. assert (F1 : frame1 a0 s1 s') by (eapply frame1_trans; [exact F|apply frame_frame1, F']).
  split; [reflexivity|]. split; [eapply Inv_frame1; eassumption|]. split; [rewrite (f1_plugins _ _ _ F1); reflexivity|]. split; [rewrite (f1_last _ _ _ F1); reflexivity|].
  split; [rewrite (f1_all _ _ _ F1); reflexivity|]. split; [rewrite (f1_depth _ _ _ F1); reflexivity|]. split.
  - intros b q Ib Q. assert (N : b <> a0) by (pose proof (listed_lt s b I Ib); unfold a0; lia).
    destruct (f1_get _ _ _ F1 b q) as (q' & Q' & V1 & V2 & V3).
    + cbn. apply in_or_app. left. exact Ib.
    + unfold s1. rewrite added_get. apply Nat.eqb_neq in N. unfold a0 in N. rewrite N. exact Q.
    + exists q'. split; [exact Q'|]. unfold vw. rewrite V1, V2, V3 by exact N. reflexivity.
  - destruct (f1_get _ _ _ F1 a0 _ L1 G1) as (q & Q & V1 & V2 & _). exists q.
    assert (L2 : In a0 (plugins s2)) by (rewrite (f1_plugins _ _ _ F); exact L1).
    destruct (fr_get _ _ F' a0 p L2 G2) as (q' & Q' & V). assert (q' = q) by congruence. subst q'. exists x.
    split; [exact Q|]. split; [exact V1|]. split; [exact V2|]. rewrite (vw_status _ _ V). exact S2.
Qed.

(** ** Unloading *)
Lemma NoDup_mid {A} (l1 : list A) a l2 : NoDup (l1 ++ a :: l2) -> NoDup (l1 ++ l2) /\ ~ In a (l1 ++ l2).
Proof. intros N. split; [apply (NoDup_remove_1 _ _ _ N)|apply (NoDup_remove_2 _ _ _ N)]. Qed.
Lemma in_mid {A} (l1 : list A) a l2 b : In b (l1 ++ l2) -> In b (l1 ++ a :: l2).
Proof. rewrite !in_app_iff. cbn [In]. tauto. Qed.
Lemma in_mid_ne {A} (l1 : list A) a l2 b : In b (l1 ++ a :: l2) -> b <> a -> In b (l1 ++ l2).
Proof. rewrite !in_app_iff. cbn [In]. intros [?|[<-|?]] N; auto. congruence. Qed.

Lemma _Unload_spec s a force c s' r : Inv s -> In a (plugins s) -> _Unload s a force c = Some (s', r) ->
  Inv s' /\ last s' = last s /\ allloaded s' = allloaded s /\ depth s' = depth s /\
  (if r then exists l1 l2, plugins s = l1 ++ a :: l2 /\ plugins s' = l1 ++ l2 else plugins s' = plugins s) /\
  (forall b p, In b (plugins s') -> getp s b = Some p -> exists p', getp s' b = Some p' /\ vw p' = vw p) /\
  length (heap s) <= length (heap s') /\
  (force = true -> r = true).
Proof.
  intros I Ia E. unfold _Unload in E. destruct (getp s a) as [p|] eqn:G; [|discriminate].
  assert (NULLCASE : forall l, erase_id s (plugins s) (p_id p) = Some l -> Some (setp (set_plugins l s) a None, true) = Some (s', r) ->
    Inv s' /\ last s' = last s /\ allloaded s' = allloaded s /\ depth s' = depth s /\
    (if r then exists l1 l2, plugins s = l1 ++ a :: l2 /\ plugins s' = l1 ++ l2 else plugins s' = plugins s) /\
    (forall b p, In b (plugins s') -> getp s b = Some p -> exists p', getp s' b = Some p' /\ vw p' = vw p) /\
    length (heap s) <= length (heap s') /\ (force = true -> r = true)).
  { intros l El R. injection R as <- <-. destruct (erase_own s a p l I Ia G El) as (l1 & l2 & E1 & E2).
    pose proof (iv_nodup _ I) as N. rewrite E1 in N. destruct (NoDup_mid _ _ _ N) as [N1 N2]. rewrite <- E2 in N1, N2.
    assert (SUB : forall b, In b l -> In b (plugins s)) by (intros b Ib; rewrite E1; apply in_mid; rewrite <- E2; exact Ib).
    pose proof (Inv_sub s l I N1 SUB) as I'.
    assert (NE : forall b, In b l -> a <> b) by (intros b Ib ->; exact (N2 Ib)).
    split; [|split; [reflexivity|split; [reflexivity|split; [reflexivity|split; [exists l1, l2; split; [exact E1|exact E2]|split; [|split; [cbn; rewrite setnth_length; lia|auto]]]]]]].
    - split; cbn [plugins last setp set_heap]; try apply I'.
      + intros b Ib. rewrite getp_setp_other by (apply NE; exact Ib). apply (iv_get _ I'). exact Ib.
      + intros b q Ib. rewrite getp_setp_other by (apply NE; exact Ib). apply (iv_id _ I'). exact Ib.
      + intros b d q q' Ib Id. rewrite !getp_setp_other by (apply NE; assumption). apply (iv_ids _ I'); assumption.
      + intros u Iu. cbn [pend heap plugins setp set_heap set_plugins]. rewrite setnth_length. apply (iv_pend _ I'). exact Iu.
    - intros b q Ib Q. rewrite getp_setp_other by (apply NE; exact Ib). exists q. auto. }
  destruct (p_api p) as [api|]; [destruct (p_lib p) as [lib|]|].
  2:{ destruct (erase_id s (plugins s) (p_id p)) as [l|] eqn:El; [|discriminate]. exact (NULLCASE l eq_refl E). }
  2:{ destruct (erase_id s (plugins s) (p_id p)) as [l|] eqn:El; [|discriminate]. exact (NULLCASE l eq_refl E). }
  clear NULLCASE.
  destruct (call_plugin s a (CUnload a (snd c) force) (fst c)) as [s1|] eqn:C; [|discriminate].
  apply call_plugin_same, same_frame in C. destruct (snd c || force) eqn:OK.
  2:{ injection E as <- <-. apply orb_false_iff in OK. destruct OK as [_ ->].
      split; [eapply Inv_frame; eassumption|]. split; [apply C|]. split; [apply C|]. split; [apply C|]. split; [apply C|]. split; [|split; [apply C|discriminate]].
      intros b q Ib Q. rewrite (fr_plugins _ _ C) in Ib. exact (fr_get _ _ C b q Ib Q). }
  destruct (getp s1 a) as [p1|] eqn:G1; [|discriminate].
  destruct (unreg_all (setp s1 a (Some (with_events [] p1))) a) as [s2|] eqn:U; [|discriminate].
  assert (F2 : frame s s2).
  { apply unreg_all_same in U. eapply frame_trans; [exact C|]. eapply frame_trans; [|apply same_frame; exact U]. apply same_frame. eapply same_setp; [exact G1|]. reflexivity. }
  pose proof (Inv_frame _ _ F2 I) as I2. pose proof (fr_plugins _ _ F2) as P2.
  assert (ID : p_id p1 = p_id p).
  { destruct (fr_get _ _ C a p Ia G) as (q & Q & V). assert (q = p1) by congruence. subst q. exact (vw_id _ _ V). }
  destruct (erase_id s2 (plugins s2) (p_id p1)) as [l|] eqn:El; [|discriminate].
  destruct (sh_unload (set_plugins l s2) (p_id p1) a true) as [s3|] eqn:H; [|discriminate]. injection E as <- <-.
  assert (Ia2 : In a (plugins s2)) by (rewrite P2; exact Ia).
  destruct (fr_get _ _ F2 a p Ia G) as (p2 & G2 & V2). assert (ID2 : p_id p1 = p_id p2) by (rewrite ID; symmetry; exact (vw_id _ _ V2)). rewrite ID2 in El.
  destruct (erase_own s2 a p2 l I2 Ia2 G2 El) as (l1 & l2 & E1 & E2).
  pose proof (iv_nodup _ I2) as N. rewrite E1 in N. destruct (NoDup_mid _ _ _ N) as [N1 N2]. rewrite <- E2 in N1, N2.
  assert (SUB : forall b, In b l -> In b (plugins s2)) by (intros b Ib; rewrite E1; apply in_mid; rewrite <- E2; exact Ib).
  pose proof (Inv_sub s2 l I2 N1 SUB) as I3.
  assert (F3 : frame (set_plugins l s2) s3).
  { eapply sh_unload_frame; [exact H| |intros _; exact N2]. cbn [heap set_plugins]. eapply getp_lt. exact G2. }
  split; [eapply Inv_frame; eassumption|]. split; [rewrite (fr_last _ _ F3); apply F2|]. split; [rewrite (fr_all _ _ F3); apply F2|]. split; [rewrite (fr_depth _ _ F3); apply F2|].
  split; [exists l1, l2; split; [congruence|rewrite (fr_plugins _ _ F3); exact E2]|]. split; [|split; [pose proof (fr_len _ _ F2); pose proof (fr_len _ _ F3); cbn [heap set_plugins] in *; lia|auto]].
  intros b q Ib Q. rewrite (fr_plugins _ _ F3) in Ib. cbn [plugins set_plugins] in Ib. pose proof (SUB b Ib) as Ib2. rewrite P2 in Ib2.
  destruct (fr_get _ _ F2 b q Ib2 Q) as (q2 & Q2 & W2). destruct (fr_get _ _ F3 b q2 Ib Q2) as (q3 & Q3 & W3). exists q3. split; [exact Q3|congruence].
Qed.
