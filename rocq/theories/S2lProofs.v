From Coq Require Import List Bool Arith Lia ZArith Ascii String.
From Verif Require Import StrModel ConsModel ConsProofs S2lModel S2lSpec.
Import ListNotations.
Local Open Scope list_scope.
Local Open Scope nat_scope.
Notation length := List.length.

(** ** Lists *)
Lemma nth_set_nth {A} (l : list A) i x j : nth_error (set_nth l i x) j =
  if (j =? i) && (i <? length l) then Some x else nth_error l j.
Proof.
  revert i j. induction l as [|y l IH]; intros [|i] [|j]; cbn [set_nth nth_error length];
    try reflexivity; try (cbn; rewrite ?andb_false_r; reflexivity).
  rewrite IH. reflexivity.
Qed.
Lemma set_nth_length {A} (l : list A) i x : length (set_nth l i x) = length l.
Proof. revert i. induction l as [|y l IH]; intros [|i]; cbn; auto. Qed.

Lemma remove1_spec h l : NoDup l -> NoDup (remove1 h l) /\ forall x, In x (remove1 h l) <-> In x l /\ x <> h.
Proof.
  induction l as [|y l IH]; intros Hn; cbn [remove1]; [split; [exact Hn|intros x; cbn; tauto]|].
  inversion Hn as [|? ? Hy Hl]; subst. destruct (Nat.eqb_spec y h) as [-> | Hyh].
  - split; [exact Hl|]. intros x. cbn. split; [intros H; split; [right; exact H|intros ->; contradiction]|].
    intros ([E|H] & Hx); [congruence|exact H].
  - destruct (IH Hl) as [A B]. split.
    + constructor; [rewrite B; tauto|exact A].
    + intros x. cbn. rewrite B. split; [intros [<- | [H1 H2]]; auto|]. intros ([E|H] & Hx); auto.
Qed.

Definition somes (l : list (option nat)) : list nat := flat_map (fun x => match x with Some h => [h] | None => [] end) l.
Lemma in_somes l x : In x (somes l) <-> In (Some x) l.
Proof.
  unfold somes. rewrite in_flat_map. split.
  - intros ([h|] & H & Hx); [destruct Hx as [<- | []]; exact H|destruct Hx].
  - intros H. exists (Some x). split; [exact H|left; reflexivity].
Qed.

Lemma somes_indexed l k : (forall i h, nth_error l i = Some (Some h) -> h = k + i) ->
  NoDup (somes l) /\ forall x, In x (somes l) -> k <= x.
Proof.
  revert k. induction l as [|y l IH]; intros k H; [split; [constructor|intros x []]|].
  destruct (IH (S k)) as [A B].
  { intros i h E. specialize (H (S i) h E). lia. }
  destruct y as [h|]; cbn.
  - pose proof (H 0 h eq_refl) as Eh. split.
    + constructor; [|exact A]. intros Hin. apply B in Hin. lia.
    + intros x [<- | Hx]; [lia|]. apply B in Hx. lia.
  - split; [exact A|]. intros x Hx. apply B in Hx. lia.
Qed.

Lemma is_open_in s h : is_open s h = true <-> In h (opened s).
Proof.
  unfold is_open. rewrite existsb_exists. split.
  - intros (x & H & E). apply Nat.eqb_eq in E. subst. exact H.
  - intros H. exists h. split; [exact H|apply Nat.eqb_refl].
Qed.

Lemma free_cached_spec l : forall s, NoDup (opened s) -> NoDup (somes l) -> (forall h, In h (somes l) -> In h (opened s)) ->
  exists o, free_cached s l = Some (set_opened s o) /\ NoDup o /\ forall x, In x o <-> In x (opened s) /\ ~ In x (somes l).
Proof.
  induction l as [|[h|] l IH]; intros s Ho Hl Hin; cbn [free_cached].
  - exists (opened s). split; [destruct s; reflexivity|]. split; [exact Ho|]. intros x. cbn. tauto.
  - cbn in Hl, Hin. inversion Hl as [|? ? Hh Hl']; subst. unfold unload.
    rewrite (proj2 (is_open_in s h)) by (apply Hin; left; reflexivity).
    destruct (remove1_spec h (opened s) Ho) as [A B].
    destruct (IH (set_opened s (remove1 h (opened s)))) as (o & E & C & D); cbn [opened set_opened]; auto.
    { intros x Hx. apply B. split; [apply Hin; right; exact Hx|intros ->; contradiction]. }
    exists o. split; [exact E|]. split; [exact C|]. intros x. rewrite D. cbn [opened set_opened]. rewrite B. cbn.
    split; [intros ((X & Y) & Z); split; [exact X|]; intros [W|W]; [congruence|contradiction]|].
    intros (X & Y). split; [split; [exact X|intros ->; apply Y; left; reflexivity]|]. intros W. apply Y. right; exact W.
  - apply IH; assumption.
Qed.

(** ** Asking for the interface *)
Record cached_ok (s : st) : Prop := {
  co_idx : forall i h, nth_error (libs s) i = Some (Some h) -> h = i;
  co_nodup : NoDup (opened s);
  co_open : forall h, In h (opened s) <-> nth_error (libs s) h = Some (Some h);
  co_vt : forall h, In h (opened s) -> ct s h = Conf h /\ st_ s h = Serv h
}.

(** everything except the libraries *)
Definition same_rest (s s' : st) : Prop :=
  exists l o c t, s' = set_st (set_ct (set_opened (set_libs s l) o) c) t /\ length l = length (libs s).
Lemma same_rest_refl s : same_rest s s.
Proof. exists (libs s), (opened s), (ct s), (st_ s). split; [destruct s; reflexivity|reflexivity]. Qed.
Lemma same_rest_trans a b c : same_rest a b -> same_rest b c -> same_rest a c.
Proof.
  intros (l & o & x & t & -> & H) (l' & o' & x' & t' & -> & H'). exists l', o', x', t'.
  split; [reflexivity|]. cbn in H'. congruence.
Qed.

Lemma cached_load s i : cached_ok s -> nth_error (libs s) i = Some None ->
  let s1 := set_libs (load s i) (set_nth (libs (load s i)) i (Some i)) in
  cached_ok s1 /\ same_rest s s1 /\ In i (opened s1).
Proof.
  intros [C1 C2 C3 C4] Hi.
  assert (Hno : ~ In i (opened s)) by (rewrite C3, Hi; discriminate).
  assert (Hc : is_open s i = false) by (destruct (is_open s i) eqn:E; [apply is_open_in in E; contradiction|reflexivity]).
  assert (Hlen : i < length (libs s)) by (apply nth_error_Some; rewrite Hi; discriminate).
  unfold load. rewrite Hc. cbn zeta. split; [|split; [|left; reflexivity]].
  - constructor; cbn [libs opened ct st_ set_libs set_opened set_ct set_st].
    + intros j h. rewrite nth_set_nth. destruct (Nat.eqb_spec j i) as [-> | Hj]; cbn [andb].
      * apply Nat.ltb_lt in Hlen. rewrite Hlen. intros [= <-]. reflexivity.
      * apply C1.
    + constructor; assumption.
    + intros h. rewrite nth_set_nth. cbn [In]. destruct (Nat.eqb_spec h i) as [-> | Hj]; cbn [andb].
      * apply Nat.ltb_lt in Hlen. rewrite Hlen. split; auto.
      * rewrite <- C3. split; [intros [E|H]; [congruence|exact H]|auto].
    + unfold upd. intros h [<- | H]; [rewrite Nat.eqb_refl; split; reflexivity|].
      destruct (Nat.eqb_spec h i) as [-> | Hj]; [contradiction|]. apply C4; exact H.
  - eexists _, _, _, _. split; [unfold set_st, set_ct, set_opened, set_libs; cbn; reflexivity|]. apply set_nth_length.
Qed.

Lemma req_loop_spec al : forall s i, cached_ok s -> i + length al = length (libs s) ->
  exists s' r, req_loop s i al = Some (s', r) /\ same_rest s s' /\
    match r with
    | None => cached_ok s'
    | Some h => nth_error (libs s') h = Some None /\ (forall i h, nth_error (libs s') i = Some (Some h) -> h = i) /\
                NoDup (opened s') /\ (forall x, In x (opened s') <-> x = h \/ nth_error (libs s') x = Some (Some x)) /\
                (forall x, In x (opened s') -> ct s' x = Conf x /\ st_ s' x = Serv x)
    end.
Proof.
  induction al as [|a al IH]; intros s i C Hl; cbn [req_loop].
  - exists s, None. split; [reflexivity|]. split; [apply same_rest_refl|exact C].
  - cbn [length] in Hl.
    assert (Hi : i < length (libs s)) by lia.
    destruct (nth_error (libs s) i) as [c|] eqn:Ec; [|apply nth_error_None in Ec; lia].
    assert (Hgo : forall s1, cached_ok s1 -> same_rest s s1 -> In i (opened s1) ->
      exists s' r, (if negb (is_open s1 i) then None
                    else if negb (a_qvi a) then req_loop s1 (S i) al
                    else if a_ptr a then Some (set_libs s1 (set_nth (libs s1) i None), Some i)
                    else req_loop s1 (S i) al) = Some (s', r) /\ same_rest s s' /\
        match r with
        | None => cached_ok s'
        | Some h => nth_error (libs s') h = Some None /\ (forall i h, nth_error (libs s') i = Some (Some h) -> h = i) /\
                    NoDup (opened s') /\ (forall x, In x (opened s') <-> x = h \/ nth_error (libs s') x = Some (Some x)) /\
                    (forall x, In x (opened s') -> ct s' x = Conf x /\ st_ s' x = Serv x)
        end).
    { intros s1 C1 R1 Hin. rewrite (proj2 (is_open_in s1 i) Hin). cbn [negb].
      assert (L1 : length (libs s1) = length (libs s)) by (destruct R1 as (lx & ox & cx & tx & -> & Hll); exact Hll).
      assert (Hrec : exists s' r, req_loop s1 (S i) al = Some (s', r) /\ same_rest s s' /\
        match r with
        | None => cached_ok s'
        | Some h => nth_error (libs s') h = Some None /\ (forall i h, nth_error (libs s') i = Some (Some h) -> h = i) /\
                    NoDup (opened s') /\ (forall x, In x (opened s') <-> x = h \/ nth_error (libs s') x = Some (Some x)) /\
                    (forall x, In x (opened s') -> ct s' x = Conf x /\ st_ s' x = Serv x)
        end).
      { destruct (IH s1 (S i) C1) as (s' & r & E & R & K); [lia|]. exists s', r. split; [exact E|].
        split; [exact (same_rest_trans _ _ _ R1 R)|exact K]. }
      destruct (negb (a_qvi a)); [exact Hrec|]. destruct (a_ptr a); [|exact Hrec].
      destruct C1 as [K1 K2 K3 K4].
      exists (set_libs s1 (set_nth (libs s1) i None)), (Some i). split; [reflexivity|]. split.
      { destruct R1 as (lx & ox & cx & tx & -> & Hll). exists (set_nth lx i None), ox, cx, tx. cbn. rewrite set_nth_length. split; [reflexivity|exact Hll]. }
      cbn [libs opened ct st_ set_libs]. split; [|split; [|split; [exact K2|split; [|exact K4]]]].
      - rewrite nth_set_nth, Nat.eqb_refl. rewrite (proj2 (Nat.ltb_lt _ _)) by lia. reflexivity.
      - intros j h. rewrite nth_set_nth. destruct ((j =? i) && (i <? length (libs s1))); [discriminate|apply K1].
      - intros x. rewrite nth_set_nth. destruct (Nat.eqb_spec x i) as [-> | Hx]; cbn [andb].
        + split; auto.
        + rewrite K3. split; [auto|intros [E|H]; [congruence|exact H]]. }
    destruct c as [h|].
    + pose proof (co_idx s C i h Ec) as ->. apply Hgo; [exact C|apply same_rest_refl|].
      apply (co_open s C). exact Ec.
    + destruct (a_load a).
      * destruct (cached_load s i C Ec) as (C1 & R1 & H1). apply Hgo; assumption.
      * destruct (IH s (S i) C) as (s' & r & E & R & K); [lia|]. exists s', r. auto.
Qed.

Lemma nodup_single (l : list nat) h : NoDup l -> (forall x, In x l <-> x = h) -> l = [h].
Proof.
  intros Hn H. destruct l as [|a [|b l]].
  - destruct (proj2 (H h) eq_refl).
  - f_equal. apply H. left; reflexivity.
  - assert (a = h) by (apply H; left; reflexivity). assert (b = h) by (apply H; right; left; reflexivity). subst.
    inversion Hn as [|? ? Ha]; subst. destruct Ha. left; reflexivity.
Qed.


(** ** Names *)
Lemma strncmp0_spec p s : strncmp0 p s = true <-> starts p s.
Proof.
  revert s. induction p as [|c p IH]; intros [|d s]; cbn [strncmp0].
  - split; [intros _; exists []; reflexivity|reflexivity].
  - split; [intros _; exists (d :: s); reflexivity|reflexivity].
  - split; [discriminate|intros (r & E); discriminate].
  - rewrite andb_true_iff, IH. split.
    + intros (E & r & ->). apply Ascii.eqb_eq in E. subst. exists r. reflexivity.
    + intros (r & E). cbn in E. injection E as -> ->. split; [apply Ascii.eqb_refl|exists r; reflexivity].
Qed.
Lemma strncmp0_false p s : strncmp0 p s = false <-> ~ starts p s.
Proof. rewrite <- strncmp0_spec. destruct (strncmp0 p s); split; congruence. Qed.

Lemma config_is_server name : starts (w_ "Source2ServerConfig") name -> starts (w_ "Source2Server") name.
Proof. intros (r & ->). exists (w_ "Config" ++ r). reflexivity. Qed.

Lemma classify_config d i name : starts (w_ "Source2ServerConfig") name ->
  classify d i name = if d || i then KConfig else KRefused.
Proof.
  intros H. unfold classify. rewrite (proj2 (strncmp0_spec _ _) (config_is_server _ H)), (proj2 (strncmp0_spec _ _) H).
  destruct d, i; reflexivity.
Qed.

Lemma server_not_config num : atoi num <> 0%Z -> strncmp0 (w_ "Source2ServerConfig") (w_ "Source2Server" ++ num) = false.
Proof.
  intros H. apply strncmp0_false. intros (r & E). apply H.
  change (w_ "Source2ServerConfig" ++ r) with (w_ "Source2Server" ++ (w_ "Config" ++ r)) in E.
  apply app_inv_head in E. subst num. apply letter_zero. reflexivity.
Qed.

Lemma classify_server d i num : d = true \/ i = true -> atoi num <> 0%Z ->
  classify d i (w_ "Source2Server" ++ num) = KServer.
Proof.
  intros H Hn. unfold classify.
  assert (S1 : strncmp0 (w_ "Source2Server") (w_ "Source2Server" ++ num) = true) by (apply strncmp0_spec; exists num; reflexivity).
  rewrite S1, server_not_config by exact Hn.
  change (skipn 13 (w_ "Source2Server" ++ num)) with num. apply Z.eqb_neq in Hn. rewrite Hn.
  destruct d, i; try reflexivity. destruct H; discriminate.
Qed.

Lemma classify_other d i name : ~ starts (w_ "Source2Server") name -> ~ starts (w_ "ServerGameDLL") name ->
  classify d i name = KOther.
Proof.
  intros H1 H2. unfold classify.
  assert (H3 : ~ starts (w_ "Source2ServerConfig") name) by (intros H; apply H1, config_is_server, H).
  rewrite (proj2 (strncmp0_false _ _) H1), (proj2 (strncmp0_false _ _) H2), (proj2 (strncmp0_false _ _) H3). reflexivity.
Qed.

(** ** Pages *)
Lemma page_mono a b : (a <= b)%Z -> (page a <= page b)%Z.
Proof. intros H. apply Z.div_le_mono; [reflexivity|exact H]. Qed.
Lemma protect_may w a : may_write (protect_rw w a) a = true.
Proof.
  unfold may_write, protect_rw. pose proof (page_mono a (a + 7) ltac:(lia)) as H.
  rewrite (proj2 (Z.leb_le (page a) (page a))) by lia. rewrite (proj2 (Z.leb_le (page (a + 7)) (page (a + 7)))) by lia.
  rewrite (proj2 (Z.leb_le (page a) (page (a + 7)))) by lia. reflexivity.
Qed.
Lemma protect_keep w a p : w p = true -> protect_rw w a p = true.
Proof. intros H. unfold protect_rw. rewrite H. apply orb_true_r. Qed.
Lemma protect_first w a : protect_rw w a (a / 4096)%Z = true.
Proof.
  unfold protect_rw. pose proof (page_mono a (a + 7) ltac:(lia)) as H. unfold page in *.
  rewrite (proj2 (Z.leb_le _ _)) by lia. rewrite (proj2 (Z.leb_le _ _)) by lia. reflexivity.
Qed.
Lemma slot0 b : slot b 0 = b. Proof. unfold slot. cbn. lia. Qed.
Lemma slot1 b : slot b 1 = (b + 8)%Z. Proof. unfold slot. lia. Qed.
Lemma may_second w b : together b -> w (b / 4096)%Z = true -> may_write w (slot b 1) = true.
Proof.
  unfold together, may_write. intros T H. rewrite slot1.
  pose proof (page_mono b (b + 8) ltac:(lia)) as H1. pose proof (page_mono (b + 8) (b + 8 + 7) ltac:(lia)) as H2.
  assert (E1 : page (b + 8 + 7) = (b / 4096)%Z) by (rewrite T; unfold page; f_equal; lia).
  unfold page in *. assert (E2 : ((b + 8) / 4096 = b / 4096)%Z) by lia. rewrite E1, E2, H. reflexivity.
Qed.

Lemma upd_same f h t : upd f h t h = t.
Proof. unfold upd. rewrite Nat.eqb_refl. reflexivity. Qed.
Lemma open_single s h : opened s = [h] -> is_open s h = true.
Proof. intros H. unfold is_open. rewrite H. cbn. rewrite Nat.eqb_refl. reflexivity. Qed.

Lemma life_app a b : life (a ++ b) = life a ++ life b.
Proof. apply filter_app. Qed.
Lemma allows_app a b : allows (a ++ b) = allows a ++ allows b.
Proof. apply flat_map_app. Qed.

Ltac fld := cbn [libs opened glib qvi config server ct st_ wrt o_connect o_allow o_init o_shutdown fact bridge core trace
  set_libs set_opened set_glib set_qvi set_config set_server set_ct set_st set_wrt set_oconnect set_oallow set_oinit set_oshut
  set_fact set_bridge set_core log tc ts wr].
Ltac fld_in H := cbn [libs opened glib qvi config server ct st_ wrt o_connect o_allow o_init o_shutdown fact bridge core trace
  set_libs set_opened set_glib set_qvi set_config set_server set_ct set_st set_wrt set_oconnect set_oallow set_oinit set_oshut
  set_fact set_bridge set_core log tc ts wr] in H.

(** ** Writes *)
Lemma write_conf_ok L s h i a : opened s = [h] -> may_write (wrt s) (slot (a_conf L h) i) = true ->
  write_conf L s h i a = Some (set_ct s (upd (ct s) h (set_slot (ct s h) i a))).
Proof. intros H1 H2. unfold write_conf. rewrite (open_single s h H1), H2. reflexivity. Qed.
Lemma write_serv_ok L s h i a : opened s = [h] -> may_write (wrt s) (slot (a_serv L h) i) = true ->
  write_serv L s h i a = Some (set_st s (upd (st_ s) h (set_slot (st_ s h) i a))).
Proof. intros H1 H2. unfold write_serv. rewrite (open_single s h H1), H2. reflexivity. Qed.

Lemma patch_connect_on L s h : config s = Some h -> opened s = [h] ->
  PatchConnect L s true =
    Some (set_ct (set_oconnect (set_wrt s (protect_rw (wrt s) (slot (a_conf L h) 0))) (ct s h 0)) (upd (ct s) h (set_slot (ct s h) 0 TConnect))).
Proof.
  intros H1 H2. unfold PatchConnect. rewrite H1. cbv zeta. rewrite write_conf_ok by (try exact H2; cbn; apply protect_may). reflexivity.
Qed.
Lemma patch_connect_off L s h : config s = Some h -> opened s = [h] ->
  PatchConnect L s false =
    Some (set_oconnect (set_ct (set_wrt s (protect_rw (wrt s) (slot (a_conf L h) 0))) (upd (ct s) h (set_slot (ct s h) 0 (o_connect s)))) Null).
Proof.
  intros H1 H2. unfold PatchConnect. rewrite H1. cbv zeta. rewrite write_conf_ok by (try exact H2; cbn; apply protect_may). reflexivity.
Qed.
Lemma patch_allow_on L s h : config s = Some h -> opened s = [h] ->
  PatchAllow L s true =
    Some (set_ct (set_oallow (set_wrt s (protect_rw (wrt s) (slot (a_conf L h) 21))) (ct s h 21)) (upd (ct s) h (set_slot (ct s h) 21 TAllow))).
Proof.
  intros H1 H2. unfold PatchAllow, allowdedi_index. rewrite H1. cbv zeta. rewrite write_conf_ok by (try exact H2; cbn [wrt set_wrt set_oallow]; apply protect_may). reflexivity.
Qed.
Lemma patch_allow_off L s h : config s = Some h -> opened s = [h] ->
  PatchAllow L s false =
    Some (set_oallow (set_ct (set_wrt s (protect_rw (wrt s) (slot (a_conf L h) 21))) (upd (ct s) h (set_slot (ct s h) 21 (o_allow s)))) Null).
Proof.
  intros H1 H2. unfold PatchAllow, allowdedi_index. rewrite H1. cbv zeta. rewrite write_conf_ok by (try exact H2; cbn [wrt set_wrt set_oallow]; apply protect_may). reflexivity.
Qed.
Lemma patch_init_on L s h : server s = Some h -> opened s = [h] ->
  PatchDllInit L s true =
    Some (set_st (set_oinit (set_wrt s (protect_rw (wrt s) (slot (a_serv L h) 3))) (st_ s h 3)) (upd (st_ s) h (set_slot (st_ s h) 3 TInit))).
Proof.
  intros H1 H2. unfold PatchDllInit, init_index. rewrite H1. cbv zeta. rewrite write_serv_ok by (try exact H2; cbn [wrt set_wrt set_oinit]; apply protect_may). reflexivity.
Qed.
Lemma patch_init_off L s h : server s = Some h -> opened s = [h] ->
  PatchDllInit L s false =
    Some (set_oinit (set_st (set_wrt s (protect_rw (wrt s) (slot (a_serv L h) 3))) (upd (st_ s) h (set_slot (st_ s h) 3 (o_init s)))) Null).
Proof.
  intros H1 H2. unfold PatchDllInit, init_index. rewrite H1. cbv zeta. rewrite write_serv_ok by (try exact H2; cbn [wrt set_wrt set_oinit]; apply protect_may). reflexivity.
Qed.

(** ** Asking *)
Definition asking (paths : nat) (s : st) : Prop :=
  cached_ok s /\ length (libs s) = paths /\ glib s = None /\ no_core s /\ life (trace s) = [] /\ allows (trace s) = [].

Lemma request_spec win L paths s v name : asking paths s -> length (v_paths v) = paths ->
  starts (w_ "Source2ServerConfig") name ->
  exists s' r, CreateInterface win L s v name = Some (s', r) /\
    if r then exists h, config s' = Some h /\ phase_says win L paths 0 (HaveC h) s' else asking paths s'.
Proof.
  intros A Hal Hn. destruct A as (C & Ll & A1 & (A2 & A3) & A4 & A5). unfold CreateInterface, GameDllRequest. rewrite A2.
  rewrite (classify_config _ _ _ Hn).
  destruct (v_dedicated v || v_insecure v).
  2:{ exists s, false. split; [reflexivity|]. split; [exact C|]. repeat split; assumption. }
  destruct (v_detect v); cbn [negb].
  2:{ exists s, false. split; [reflexivity|]. split; [exact C|]. repeat split; assumption. }
  destruct (req_loop_spec (v_paths v) s 0 C) as (s1 & r & -> & (l & o & c & t & -> & R) & K); [cbn; congruence|].
  destruct r as [h|].
  2:{ eexists _, false. split; [reflexivity|]. split; [exact K|]. cbn. repeat split; try assumption. congruence. }
  destruct K as (K1 & K2 & K3 & K4 & K5). cbn [libs opened ct st_ set_libs set_opened set_ct set_st] in *.
  destruct (somes_indexed l 0 K2) as [N _].
  match goal with |- context [free_cached ?a l] => destruct (free_cached_spec l a K3 N) as (o' & -> & No & Ho) end.
  { intros x Hx. apply in_somes in Hx. apply In_nth_error in Hx. destruct Hx as (j & Hj).
    pose proof (K2 _ _ Hj) as ->. apply K4. auto. }
  assert (Hh : h < paths) by (rewrite <- Ll, <- R; apply nth_error_Some; rewrite K1; discriminate).
  assert (Eo : o' = [h]).
  { apply nodup_single; [exact No|]. intros x. rewrite Ho. cbn [opened set_st set_ct set_opened]. rewrite K4, in_somes. split.
    - intros ([E|E] & Hn'); [exact E|]. apply nth_error_In in E. contradiction.
    - intros ->. split; [left; reflexivity|]. intros E. apply In_nth_error in E. destruct E as (j & E). pose proof (K2 _ _ E). subst j. congruence. }
  assert (Kh : c h = Conf h /\ t h = Serv h) by (apply K5, K4; left; reflexivity).
  destruct Kh as [Kc Kt]. subst o'.
  rewrite (patch_connect_on L _ h) by reflexivity. destruct win.
  - rewrite (patch_allow_on L _ h) by reflexivity. eexists _, true. split; [reflexivity|]. exists h. split; [reflexivity|].
    unfold phase_says, held, allow_says, page_open, no_core. cbn [andb Nat.eqb]. fld. rewrite !upd_same, Kc, Kt.
    repeat split; try assumption; try reflexivity.
    + apply protect_keep. rewrite slot0. apply protect_first.
    + intros j J0 J1. unfold set_slot. rewrite (proj2 (Nat.eqb_neq j 21) J1), (proj2 (Nat.eqb_neq j 0) J0). reflexivity.
  - eexists _, true. split; [reflexivity|]. exists h. split; [reflexivity|].
    unfold phase_says, held, allow_says, page_open, no_core. cbn [andb Nat.eqb]. fld. rewrite !upd_same, Kc, Kt.
    repeat split; try assumption; try reflexivity.
    + rewrite slot0. apply protect_first.
    + intros j J0 J1. unfold set_slot. rewrite (proj2 (Nat.eqb_neq j 0) J0). reflexivity.
Qed.

(** ** Steps *)
Lemma connect_step win L paths n h s f e r : phase_says win L paths n (HaveC h) s -> benign e ->
  (forall w, ts (e w) 3 = ts w 3) ->
  exists s', step win L s (OConnect f e r) = Some s' /\ phase_says win L paths n (Conn h f) s'.
Proof.
  intros (Hp & (H1 & H2 & H3 & H4) & (A1 & A2) & P & (N1 & N2) & T & C & S' & C0 & O) [B1 B2 B3] B4.
  unfold step. rewrite H1, (open_single s h H4), C0. cbn [negb]. unfold Connect. fld. rewrite O. fld. rewrite H1.
  unfold others_run. fld. rewrite (patch_connect_off L _ h) by assumption. eexists. split; [reflexivity|].
  unfold phase_says, held, allow_says, page_open, no_core. fld. rewrite !upd_same.
  set (w := W (ct s h) (st_ s h) (wrt s)). split; [exact Hp|]. split; [auto|]. split.
  { split.
    - unfold set_slot. cbn [Nat.eqb]. rewrite B2. exact A1.
    - rewrite allows_app, A2. cbn. apply app_nil_r. }
  split; [apply protect_keep, B3; exact P|]. split; [auto|]. split.
  { rewrite life_app, T. reflexivity. }
  split; [unfold set_slot; cbn; exact O|]. split.
  { unfold set_slot. cbn [Nat.eqb]. unfold hookable. destruct (B1 w) as [-> | Hx]; [left; apply C; discriminate|right; exact Hx]. }
  split; [|reflexivity]. rewrite B4. apply S'.
Qed.

Lemma server_step win L paths n h s f v num : phase_says win L paths n (Conn h f) s ->
  v_dedicated v = true \/ v_insecure v = true -> atoi num <> 0%Z -> v_qvi v = true ->
  exists s', CreateInterface win L s v (w_ "Source2Server" ++ num) = Some (s', true) /\ phase_says win L paths n (HaveS h f) s'.
Proof.
  intros (Hp & (H1 & H2 & H3 & H4) & (A1 & A2) & P & (N1 & N2) & T & C0 & C1 & S3 & F) Hd Hn Hv.
  unfold CreateInterface. rewrite N1. unfold GameDllRequest. rewrite classify_server by assumption.
  rewrite H3, (open_single s h H4), Hv. cbn [negb]. rewrite (patch_init_on L _ h) by (try reflexivity; exact H4).
  eexists. split; [reflexivity|]. unfold phase_says, held, allow_says, page_open, no_core. fld. rewrite !upd_same.
  split; [exact Hp|]. split; [auto|]. split.
  { split; [exact A1|]. rewrite allows_app, A2. cbn. apply app_nil_r. }
  split; [apply protect_keep; exact P|]. split; [auto|]. split.
  { rewrite life_app, T. reflexivity. }
  repeat split; assumption.
Qed.

Lemma server_null win L paths n h s f v num : phase_says win L paths n (Conn h f) s ->
  v_dedicated v = true \/ v_insecure v = true -> atoi num <> 0%Z -> v_qvi v = false ->
  CreateInterface win L s v (w_ "Source2Server" ++ num) = None.
Proof.
  intros (Hp & (H1 & H2 & H3 & H4) & (A1 & A2) & P & (N1 & N2) & T & C0 & C1 & S3 & F) Hd Hn Hv.
  unfold CreateInterface. rewrite N1. unfold GameDllRequest. rewrite classify_server by assumption.
  rewrite H3, (open_single s h H4), Hv. reflexivity.
Qed.

Lemma allow_step win L paths n p h s : phase_says win L paths n p s -> has_config p = Some h ->
  exists s', step win L s OAllow = Some s' /\ phase_says win L paths (S n) p s'.
Proof.
  intros I Hc.
  assert (Hh : config s = Some h /\ opened s = [h] /\ allow_says win n h s).
  { destruct p as [|x|x f|x f|x f o|x f o]; cbn in Hc; try discriminate; injection Hc as ->; cbn in I; unfold held in I; tauto. }
  destruct Hh as (H1 & H4 & (A1 & A2)). unfold step. rewrite H1, (open_single s h H4). cbn [negb]. unfold allowdedi_index.
  destruct (win && (n =? 0)) eqn:Ew.
  - destruct A1 as [A1 A3]. rewrite A1. unfold AllowDedicatedServers. rewrite (patch_allow_off L s h H1 H4). eexists. split; [reflexivity|].
    apply andb_true_iff in Ew. destruct Ew as [-> En]. apply Nat.eqb_eq in En. subst n.
    assert (As : allow_says true 1 h (set_oallow (set_ct (set_wrt s (protect_rw (wrt s) (slot (a_conf L h) 21)))
              (upd (ct s) h (set_slot (ct s h) 21 (o_allow s)))) Null)).
    { unfold allow_says. fld. rewrite upd_same. split; [unfold set_slot; cbn; exact A3|exact A2]. }
    destruct p as [|x|x f|x f|x f o|x f o]; cbn in Hc; try discriminate; injection Hc as ->;
      unfold phase_says, held, page_open, no_core in *; fld; rewrite ?upd_same.
    + destruct I as (I0 & I1 & _ & I3 & I4 & I5 & I6 & I7 & I8 & I9). repeat split; try tauto; try exact (proj1 As); try exact (proj2 As).
      * apply protect_keep; exact I3.
      * intros j J0 J1. unfold set_slot. rewrite (proj2 (Nat.eqb_neq j 21) J1). apply I6; assumption.
    + destruct I as (I0 & I1 & _ & I3 & I4 & I5 & I6 & I7 & I8 & I9). repeat split; try tauto; try exact (proj1 As); try exact (proj2 As).
      apply protect_keep; exact I3.
    + destruct I as (I0 & I1 & _ & I3 & I4 & I5 & I6 & I7 & I8 & I9 & I10). repeat split; try tauto; try exact (proj1 As); try exact (proj2 As).
      apply protect_keep; exact I3.
    + destruct I as (I0 & I1 & _ & I3 & I4 & I5 & I6 & I7). repeat split; try tauto; try exact (proj1 As); try exact (proj2 As).
  - rewrite A1. eexists. split; [reflexivity|].
    assert (As : allow_says win (S n) h (log s (CallAllow (Conf h 21)))).
    { unfold allow_says. fld. rewrite allows_app, A2. cbn [allows flat_map Nat.eqb]. rewrite andb_false_r. split; [exact A1|].
      destruct win.
      - destruct n as [|n]; [discriminate Ew|]. replace (S (S n) - 1) with (S (S n - 1)) by lia. cbn [app]. 
        change [Conf h 21] with (repeat (Conf h 21) 1). rewrite <- repeat_app. f_equal. lia.
      - cbn [app]. change [Conf h 21] with (repeat (Conf h 21) 1). rewrite <- repeat_app. f_equal. lia. }
    assert (El : life (trace (log s (CallAllow (Conf h 21)))) = life (trace s)) by (fld; rewrite life_app; cbn; apply app_nil_r).
    destruct p as [|x|x f|x f|x f o|x f o]; cbn in Hc; try discriminate; injection Hc as ->;
      unfold phase_says, held, page_open, no_core in *; rewrite El; fld; tauto.
Qed.

Lemma other_step win L paths n p s v name : phase_says win L paths n p s -> (p = Asking -> asking paths s) ->
  ~ starts (w_ "Source2Server") name -> ~ starts (w_ "ServerGameDLL") name ->
  exists s', step win L s (Request v name) = Some s' /\ phase_says win L paths n p s' /\ (p = Asking -> asking paths s').
Proof.
  intros I Hk H1 H2. unfold step, CreateInterface, GameDllRequest. rewrite (classify_other _ _ _ H1 H2).
  assert (Hl : forall c, match c with CoreAsked _ | GameAsked _ => True | _ => False end ->
     phase_says win L paths n p (log s c)).
  { intros c Hc.
    assert (El : life (trace (log s c)) = life (trace s)) by (fld; rewrite life_app; destruct c; try contradiction; cbn; apply app_nil_r).
    assert (Ea : allows (trace (log s c)) = allows (trace s)) by (fld; rewrite allows_app; destruct c; try contradiction; cbn; apply app_nil_r).
    destruct p as [|x|x f|x f|x f o|x f o]; unfold phase_says, held, allow_says, page_open, no_core in *; rewrite El, ?Ea; fld; exact I. }
  destruct (bridge s) eqn:Eb.
  - eexists. split; [reflexivity|]. split; [apply Hl; exact Logic.I|]. intros ->. destruct (Hk eq_refl) as (_ & _ & _ & (X & _) & _). congruence.
  - destruct (glib s) as [g|] eqn:Eg.
    + assert (Hx : exists h, qvi s = Some h /\ opened s = [h]).
      { destruct p as [|x|x f|x f|x f o|x f o]; cbn in I; unfold held in I.
        - destruct I as (_ & _ & X & _). congruence.
        - exists x. tauto.
        - exists x. tauto.
        - exists x. tauto.
        - exists x. tauto.
        - destruct I as (_ & X1 & X2 & X3 & _). exists x. destruct (core_up o); [congruence|auto]. }
      destruct Hx as (h & E1 & E2). rewrite E1, (open_single s h E2). eexists. split; [reflexivity|]. split; [apply Hl; exact Logic.I|].
      intros ->. destruct (Hk eq_refl) as (_ & _ & X & _). congruence.
    + eexists. split; [reflexivity|]. split; [exact I|exact Hk].
Qed.

(** what others do during Init, one after another *)
Lemma benign_comp f g : benign f -> benign g -> benign (fun w => g (f w)).
Proof.
  intros [F1 F2 F3] [G1 G2 G3]. constructor.
  - intros w. destruct (G1 (f w)) as [-> | G]; [apply F1|right; exact G].
  - intros w. rewrite G2. apply F2.
  - intros w p Hp. apply G3, F3, Hp.
Qed.
Lemma others_benign o : benign_out o -> benign (others o).
Proof.
  intros (B1 & B2 & B3). unfold others.
  assert (I : benign (fun w : world => w)) by (constructor; intros; auto).
  destruct (pre_called o), (core_up o && o_result o);
    repeat first [exact B2|apply (benign_comp (fun w => e_game o (e_pre o w)))|apply (benign_comp (e_pre o))|apply (benign_comp (e_game o))|assumption].
Qed.

Lemma W_eta x : W (tc x) (ts x) (wr x) = x.
Proof. destruct x; reflexivity. Qed.

Definition world_of (s : st) (h : nat) : world := W (ct s h) (st_ s h) (wrt s).
Record mid (h : nat) (s s3 : st) (w : world) (t : list call) : Prop := {
  md_config : config s3 = config s; md_glib : glib s3 = glib s; md_qvi : qvi s3 = qvi s; md_opened : opened s3 = opened s;
  md_server : server s3 = server s; md_oi : o_init s3 = o_init s; md_oa : o_allow s3 = o_allow s; md_fact : fact s3 = fact s;
  md_w : world_of s3 h = w; md_trace : trace s3 = trace s ++ t
}.
Lemma mid_run h s s3 w t c f : mid h s s3 w t -> mid h s (others_run (log s3 c) h f) (f w) (t ++ [c]).
Proof.
  intros [M1 M2 M3 M4 M5 M6 M7 M8 M9 M10]. constructor; try assumption.
  - unfold world_of, others_run. fld. rewrite !upd_same. rewrite W_eta. unfold world_of in M9. rewrite M9. reflexivity.
  - unfold others_run. fld. rewrite M10. apply app_assoc_reverse.
Qed.
Lemma mid_refl h s : mid h s s (world_of s h) [].
Proof. constructor; try reflexivity. symmetry. apply app_nil_r. Qed.
Lemma mid_flags h s s3 w t b c : mid h s s3 w t -> mid h s (set_core (set_bridge s3 b) c) w t.
Proof. intros [M1 M2 M3 M4 M5 M6 M7 M8 M9 M10]. constructor; assumption. Qed.
Lemma mid_flags' h s s3 w t b c : mid h s s3 w t -> mid h s (set_bridge (set_core s3 c) b) w t.
Proof. intros [M1 M2 M3 M4 M5 M6 M7 M8 M9 M10]. constructor; assumption. Qed.
Lemma mid_core h s s3 w t c : mid h s s3 w t -> mid h s (set_core s3 c) w t.
Proof. intros [M1 M2 M3 M4 M5 M6 M7 M8 M9 M10]. constructor; assumption. Qed.
Lemma mid_log h s s3 w t c : mid h s s3 w t -> mid h s (log s3 c) w (t ++ [c]).
Proof.
  intros [M1 M2 M3 M4 M5 M6 M7 M8 M9 M10]. constructor; try assumption. fld. rewrite M10. apply app_assoc_reverse.
Qed.

(** the middle part of Init: the core's start and the game's Init *)
Lemma init_first L s o h : server s = Some h -> bridge s = false -> core s = false -> o_init s = Serv h 3 ->
  exists s2, mid h s s2 (e_game o (if pre_called o then e_pre o (world_of s h) else world_of s h))
               ((if pre_called o then [CorePre (fact s)] else []) ++ [CallInit (Serv h 3)]) /\
    bridge s2 = core_up o /\ core s2 = core_up o /\
    Init L s o =
      match (if negb (o_result o) then
               if bridge s2 then Some (set_core (set_bridge (log s2 CoreUnload) false) false) else None
             else if bridge s2 then PatchDllShutdown L (others_run (log s2 CorePost) h (e_post o)) (o_index o)
             else Some s2) with
      | Some s => match PatchDllInit L s false with Some s => Some (s, o_result o) | None => None end
      | None => None
      end.
Proof.
  intros Sv B C Oi. unfold Init, pre_called, core_up.
  set (s0 := if o_load o then if o_getbridge o then set_bridge (set_core s true) true else set_core s false else s).
  assert (M0 : mid h s s0 (world_of s h) [] /\ bridge s0 = o_load o && o_getbridge o /\ core s0 = o_load o && o_getbridge o).
  { unfold s0. destruct (o_load o); [destruct (o_getbridge o)|]; cbn [andb].
    - split; [apply mid_flags', mid_refl|split; reflexivity].
    - split; [apply mid_core, mid_refl|split; [exact B|reflexivity]].
    - split; [apply mid_refl|split; assumption]. }
  clearbody s0. destruct M0 as (M0 & B0 & C0).
  assert (Hs0 : server s0 = Some h) by (rewrite (md_server _ _ _ _ _ M0); exact Sv).
  assert (Hf0 : fact s0 = fact s) by exact (md_fact _ _ _ _ _ M0).
  rewrite Hs0. rewrite B0.
  set (s1 := if o_load o && o_getbridge o then if o_pre o then others_run (log s0 (CorePre (fact s0))) h (e_pre o)
              else set_core (set_bridge (others_run (log s0 (CorePre (fact s0))) h (e_pre o)) false) false else s0).
  assert (M1 : mid h s s1 (if o_load o && o_getbridge o then e_pre o (world_of s h) else world_of s h)
             (if o_load o && o_getbridge o then [CorePre (fact s)] else []) /\
           bridge s1 = o_load o && o_getbridge o && o_pre o /\ core s1 = o_load o && o_getbridge o && o_pre o).
  { unfold s1. destruct (o_load o && o_getbridge o); [|split; [exact M0|split; assumption]].
    pose proof (mid_run h s s0 _ _ (CorePre (fact s0)) (e_pre o) M0) as Mr. rewrite Hf0 in *. cbn [app andb] in *.
    destruct (o_pre o); (split; [try apply mid_flags; exact Mr|]); unfold others_run; fld; split; try assumption; try reflexivity. }
  clearbody s1. destruct M1 as (M1 & B1 & C1).
  assert (Oi1 : o_init s1 = Serv h 3) by (rewrite (md_oi _ _ _ _ _ M1); exact Oi).
  pose proof (mid_run h s s1 _ _ (CallInit (Serv h 3)) (e_game o) M1) as M2.
  rewrite Oi1. exists (others_run (log s1 (CallInit (Serv h 3))) h (e_game o)). split; [exact M2|].
  split; [exact B1|]. split; [exact C1|]. reflexivity.
Qed.

Lemma init_step win L paths n h s f o : phase_says win L paths n (HaveS h f) s -> o_index o = 1 -> benign_out o ->
  core_up o = true \/ o_result o = true ->
  (core_up o && o_result o = true -> may_write (wr (others o (W (ct s h) (st_ s h) (wrt s)))) (slot (a_conf L h) 1) = true) ->
  exists s', step win L s (OInit o) = Some s' /\ phase_says win L paths n (Ran h f o) s'.
Proof.
  intros (Hp & (H1 & H2 & H3 & H4) & (A1 & A2) & P & (N1 & N2) & T & C0 & C1 & S3 & F & Sv & Oi) Hi Hb Hup Hw.
  destruct (others_benign o Hb) as [B1 B2 _].
  fold (world_of s h) in Hw.
  assert (K1 : hookable h 1 (tc (others o (world_of s h)) 1)).
  { destruct (B1 (world_of s h)) as [E|E]; [rewrite E; exact C1|right; exact E]. }
  pose proof (B2 (world_of s h)) as K2. change (tc (world_of s h) 21) with (ct s h 21) in K2. clear B1 B2 Hb.
  unfold step. rewrite Sv, (open_single s h H4). cbn [negb]. unfold init_index. rewrite S3.
  destruct (init_first L s o h Sv N1 N2 Oi) as (s2 & M2 & Br & Co & ->). rewrite Br, F in *.
  assert (Fin : exists s3, mid h s s3 (others o (world_of s h)) (on_init h f o) /\
     bridge s3 = core_up o && o_result o /\ core s3 = core_up o && o_result o /\
     (if negb (o_result o) then if core_up o then Some (set_core (set_bridge (log s2 CoreUnload) false) false) else None
      else if core_up o then PatchDllShutdown L (others_run (log s2 CorePost) h (e_post o)) (o_index o) else Some s2) =
     (if core_up o && o_result o then PatchDllShutdown L s3 1 else Some s3)).
  { unfold others, on_init. rewrite Hi. rewrite app_assoc. destruct (core_up o), (o_result o); cbn [andb negb];
      try (destruct Hup; discriminate); (eexists; split; [|split; [|split; [|reflexivity]]]).
    - apply mid_run; exact M2.
    - exact Br.
    - exact Co.
    - apply mid_flags, mid_log; exact M2.
    - reflexivity.
    - reflexivity.
    - rewrite app_nil_r. exact M2.
    - exact Br.
    - exact Co. }
  destruct Fin as (s3 & [M1 M3 M4 M5 M6 M7 M8 M9 M10 M11] & Br3 & Co3 & ->). clear M2 Br Co s2. rewrite H1, H2, H3, H4, Sv, Oi, F in *.
  assert (E1 : ct s3 h = tc (others o (world_of s h))) by (rewrite <- M10; reflexivity).
  assert (E3 : wrt s3 = wr (others o (world_of s h))) by (rewrite <- M10; reflexivity).
  assert (Al : allows (on_init h f o) = []) by (unfold on_init; destruct (pre_called o), (core_up o), (o_result o); reflexivity).
  assert (Li : life (on_init h f o) = on_init h f o) by (unfold on_init; destruct (pre_called o), (core_up o), (o_result o); reflexivity).
  assert (At : allows (trace s3) = allows (trace s)) by (rewrite M11, allows_app, Al; apply app_nil_r).
  assert (Lt : life (trace s3) = on_connect h f ++ on_init h f o) by (rewrite M11, life_app, Li, T; reflexivity).
  rewrite <- E1 in K1, K2. rewrite <- E3 in Hw. rewrite <- M8 in A1. rewrite <- K2 in A1. rewrite <- At in A2.
  clear K2 At M11 M10 E1 E3 M8.
  destruct (core_up o && o_result o) eqn:Eu.
  - unfold PatchDllShutdown. rewrite M1. rewrite write_conf_ok by (try exact M5; fld; apply Hw; reflexivity).
    rewrite (patch_init_off L _ h) by (fld; assumption). eexists. split; [reflexivity|].
    unfold phase_says, held, allow_says. rewrite Eu. fld. rewrite !upd_same. unfold set_slot. cbn [Nat.eqb].
    repeat split; assumption.
  - rewrite (patch_init_off L s3 h) by assumption. eexists. split; [reflexivity|].
    unfold phase_says, held, allow_says. rewrite Eu. fld. rewrite !upd_same. unfold set_slot. cbn [Nat.eqb].
    repeat split; assumption.
Qed.

Lemma init_crash win L paths n h s f o : phase_says win L paths n (HaveS h f) s ->
  core_up o = false -> o_result o = false -> step win L s (OInit o) = None.
Proof.
  intros (Hp & (H1 & H2 & H3 & H4) & (A1 & A2) & P & (N1 & N2) & T & C0 & C1 & S3 & F & Sv & Oi) Hc Hr.
  unfold step. rewrite Sv, (open_single s h H4). cbn [negb]. unfold init_index. rewrite S3.
  destruct (init_first L s o h Sv N1 N2 Oi) as (s2 & M2 & Br & Co & ->). rewrite Br, Hc, Hr. reflexivity.
Qed.

Lemma init_protected win L paths n h s f o : phase_says win L paths n (HaveS h f) s -> o_index o = 1 ->
  core_up o && o_result o = true ->
  may_write (wr (others o (W (ct s h) (st_ s h) (wrt s)))) (slot (a_conf L h) 1) = false ->
  step win L s (OInit o) = None.
Proof.
  intros (Hp & (H1 & H2 & H3 & H4) & (A1 & A2) & P & (N1 & N2) & T & C0 & C1 & S3 & F & Sv & Oi) Hi Hc Hw.
  unfold others in Hw. rewrite Hc in Hw. fold (world_of s h) in Hw. apply andb_true_iff in Hc. destruct Hc as [Hc Hr].
  unfold step. rewrite Sv, (open_single s h H4). cbn [negb]. unfold init_index. rewrite S3.
  destruct (init_first L s o h Sv N1 N2 Oi) as (s2 & M2 & Br & Co & ->). rewrite Br, Hc, Hr, Hi. cbn [negb].
  apply (mid_run h s s2 _ _ CorePost (e_post o)) in M2. destruct M2 as [M1 M3 M4 M5 M6 M7 M8 M9 M10 M11].
  rewrite <- M10 in Hw. generalize dependent (others_run (log s2 CorePost) h (e_post o)). intros s3. intros.
  unfold PatchDllShutdown. rewrite M1, H1. unfold write_conf. fld. change (wr (world_of s3 h)) with (wrt s3) in Hw.
  rewrite Hw, andb_false_r. reflexivity.
Qed.

Lemma down_step win L paths n h s f o eu eg : phase_says win L paths n (Ran h f o) s -> o_result o = true ->
  exists s', step win L s (ODisconnect eu eg) = Some s' /\ phase_says win L paths n (Down h f o) s'.
Proof.
  intros (Hp & (H1 & H2 & H3 & H4) & (A1 & A2) & T & S3 & B & Co & C1) Hr. rewrite Hr, andb_true_r in *.
  unfold step. rewrite H1, (open_single s h H4). cbn [negb]. destruct (core_up o) eqn:Eu.
  - destruct C1 as [C1 O1]. rewrite C1. unfold Disconnect. rewrite B, H1. unfold others_run. fld.
    assert (Ho : match o_shutdown s with TDisconnect => False | _ => True end) by (destruct O1 as [-> | (k & ->)]; exact Logic.I).
    match goal with |- exists s', ?X = Some s' /\ _ => assert (E : X = Some (set_glib (set_opened (others_run (log (set_core (set_bridge (others_run (log s CoreUnload) h eu) false) false) (CallDisconnect (o_shutdown s))) h eg) []) None)) end.
    { unfold others_run. fld. destruct (o_shutdown s); try contradiction; rewrite H2; unfold unload, is_open; fld; rewrite H4; cbn; rewrite Nat.eqb_refl; reflexivity. }
    rewrite E. eexists. split; [reflexivity|]. unfold phase_says, no_core, others_run. fld. rewrite Eu. repeat split; try assumption.
    exists (o_shutdown s). split; [exact O1|]. rewrite !life_app, T. unfold on_down. rewrite Eu. cbn. rewrite <- !app_assoc. reflexivity.
  - assert (E : match ct s h 1 with Conf _ _ | Other _ => True | _ => False end) by (destruct C1 as [-> | (k & ->)]; exact Logic.I).
    exists (others_run (log s (CallDisconnect (ct s h 1))) h eg). split; [destruct (ct s h 1); try contradiction; reflexivity|].
    unfold phase_says, no_core, others_run. fld. rewrite Eu. repeat split; try assumption.
    exists (ct s h 1). split; [exact C1|]. rewrite life_app, T. unfold on_down. rewrite Eu. cbn. rewrite <- ?app_assoc. reflexivity.
Qed.

(** ** Histories *)
Lemma reach_inv win L paths w0 n p s : reach win L paths w0 n p s ->
  phase_says win L paths n p s /\ (p = Asking -> asking paths s).
Proof.
  intros H. induction H.
  - assert (A : asking paths (start paths w0)).
    { split; [|split; [apply repeat_length|repeat split]]. constructor; cbn [libs opened start].
      - intros i h E. apply nth_error_In, repeat_spec in E. discriminate.
      - constructor.
      - intros h. split; [intros []|]. intros E. apply nth_error_In, repeat_spec in E. discriminate.
      - intros h []. }
    split; [|intros _; exact A]. destruct A as (_ & A). cbn in *. tauto.
  - destruct IHreach as [_ IA]. destruct (request_spec win L paths s v name (IA eq_refl) H0 H1) as (s1 & r & E & K).
    rewrite E in H2. injection H2 as -> ->. split; [|intros _; exact K]. destruct K as (_ & K). cbn. tauto.
  - destruct IHreach as [_ IA]. destruct (request_spec win L paths s v name (IA eq_refl) H0 H1) as (s1 & r & E & K).
    rewrite E in H2. injection H2 as -> ->. destruct K as (h' & Eh & K). assert (h' = h) by congruence. subst h'.
    split; [exact K|discriminate].
  - destruct IHreach as [IH _]. destruct (connect_step win L paths n h s f e r IH H0 H1) as (s1 & E & K).
    rewrite E in H2. injection H2 as <-. split; [exact K|discriminate].
  - destruct IHreach as [IH _]. destruct (v_qvi v) eqn:Ev.
    + destruct (server_step win L paths n h s f v num IH H0 H1 Ev) as (s1 & E & K).
      rewrite E in H2. injection H2 as <- <-. split; [exact K|discriminate].
    + rewrite (server_null win L paths n h s f v num IH H0 H1 Ev) in H2. discriminate.
  - destruct IHreach as [IH _].
    destruct (core_up o) eqn:Eu; [|destruct (o_result o) eqn:Er]; cycle 2.
    { rewrite (init_crash win L paths n h s f o IH Eu Er) in H2. discriminate. }
    + destruct (core_up o && o_result o && negb (may_write (wr (others o (W (ct s h) (st_ s h) (wrt s)))) (slot (a_conf L h) 1))) eqn:Ex.
      * apply andb_true_iff in Ex. destruct Ex as [E1 E2]. apply negb_true_iff in E2.
        rewrite (init_protected win L paths n h s f o IH H0 E1 E2) in H2. discriminate.
      * destruct (init_step win L paths n h s f o IH H0 H1) as (s1 & E & K); [left; exact Eu| |rewrite E in H2; injection H2 as <-; split; [exact K|discriminate]].
        intros E1. rewrite E1 in Ex. cbn [andb] in Ex. apply negb_false_iff in Ex. exact Ex.
    + destruct (init_step win L paths n h s f o IH H0 H1) as (s1 & E & K); [right; exact Er| |rewrite E in H2; injection H2 as <-; split; [exact K|discriminate]].
      rewrite Eu. discriminate.
  - destruct IHreach as [IH _]. destruct (down_step win L paths n h s f o eu eg IH H0) as (s1 & E & K).
    rewrite E in H1. injection H1 as <-. split; [exact K|discriminate].
  - destruct IHreach as [IH _]. destruct (allow_step win L paths n p h s IH H0) as (s1 & E & K).
    rewrite E in H1. injection H1 as <-. split; [exact K|]. intros ->. discriminate.
  - destruct IHreach as [IH IA]. destruct (other_step win L paths n p s v name IH IA H0 H1) as (s1 & E & K & K2).
    rewrite E in H2. injection H2 as <-. split; assumption.
Qed.
