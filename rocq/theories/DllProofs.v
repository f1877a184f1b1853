From Coq Require Import List Bool Arith Lia.
From Verif Require Import DllModel DllSpec.
Import ListNotations.

(** ** Lists *)
Lemma nth_set_nth {A} (l : list A) i x j : nth_error (set_nth l i x) j =
  if (j =? i) && (i <? length l) then Some x else nth_error l j.
Proof.
  revert i j. induction l as [|y l IH]; intros [|i] [|j]; cbn [set_nth nth_error length];
    try reflexivity; try (cbn; rewrite ?andb_false_r; reflexivity).
  rewrite IH. reflexivity.
Qed.
Lemma set_nth_length {A} (l : list A) i x : length (set_nth l i x) = length l.
Proof. revert i. induction l as [|y l IH]; intros [|i]; cbn; auto. Qed.

Lemma remove1_spec h l : NoDup l -> NoDup (remove1 h l) /\ forall x, In x (remove1 h l) <-> In x l /\ x <> h.
Proof.
  induction l as [|y l IH]; intros Hn; cbn [remove1]; [split; [exact Hn|intros x; cbn; tauto]|].
  inversion Hn as [|? ? Hy Hl]; subst. destruct (Nat.eqb_spec y h) as [-> | Hyh].
  - split; [exact Hl|]. intros x. cbn. split; [intros H; split; [right; exact H|intros ->; contradiction]|].
    intros ([E|H] & Hx); [congruence|exact H].
  - destruct (IH Hl) as [A B]. split.
    + constructor; [rewrite B; tauto|exact A].
    + intros x. cbn. rewrite B. split; [intros [<- | [H1 H2]]; auto|]. intros ([E|H] & Hx); auto.
Qed.

Definition somes (l : list (option nat)) : list nat := flat_map (fun x => match x with Some h => [h] | None => [] end) l.
Lemma in_somes l x : In x (somes l) <-> In (Some x) l.
Proof.
  unfold somes. rewrite in_flat_map. split.
  - intros ([h|] & H & Hx); [destruct Hx as [<- | []]; exact H|destruct Hx].
  - intros H. exists (Some x). split; [exact H|left; reflexivity].
Qed.

Lemma somes_indexed l k : (forall i h, nth_error l i = Some (Some h) -> h = k + i) ->
  NoDup (somes l) /\ forall x, In x (somes l) -> k <= x.
Proof.
  revert k. induction l as [|y l IH]; intros k H; [split; [constructor|intros x []]|].
  destruct (IH (S k)) as [A B].
  { intros i h E. specialize (H (S i) h E). lia. }
  destruct y as [h|]; cbn.
  - pose proof (H 0 h eq_refl) as Eh. split.
    + constructor; [|exact A]. intros Hin. apply B in Hin. lia.
    + intros x [<- | Hx]; [lia|]. apply B in Hx. lia.
  - split; [exact A|]. intros x Hx. apply B in Hx. lia.
Qed.

Lemma is_open_in s h : is_open s h = true <-> In h (opened s).
Proof.
  unfold is_open. rewrite existsb_exists. split.
  - intros (x & H & E). apply Nat.eqb_eq in E. subst. exact H.
  - intros H. exists h. split; [exact H|apply Nat.eqb_refl].
Qed.

Lemma free_cached_spec l : forall s, NoDup (opened s) -> NoDup (somes l) -> (forall h, In h (somes l) -> In h (opened s)) ->
  exists o, free_cached s l = Some (set_opened s o) /\ NoDup o /\ forall x, In x o <-> In x (opened s) /\ ~ In x (somes l).
Proof.
  induction l as [|[h|] l IH]; intros s Ho Hl Hin; cbn [free_cached].
  - exists (opened s). split; [destruct s; reflexivity|]. split; [exact Ho|]. intros x. cbn. tauto.
  - cbn in Hl, Hin. inversion Hl as [|? ? Hh Hl']; subst. unfold unload.
    rewrite (proj2 (is_open_in s h)) by (apply Hin; left; reflexivity).
    destruct (remove1_spec h (opened s) Ho) as [A B].
    destruct (IH (set_opened s (remove1 h (opened s)))) as (o & E & C & D); cbn [opened set_opened]; auto.
    { intros x Hx. apply B. split; [apply Hin; right; exact Hx|intros ->; contradiction]. }
    exists o. split; [exact E|]. split; [exact C|]. intros x. rewrite D. cbn [opened set_opened]. rewrite B. cbn.
    split; [intros ((X & Y) & Z); split; [exact X|]; intros [W|W]; [congruence|contradiction]|].
    intros (X & Y). split; [split; [exact X|intros ->; apply Y; left; reflexivity]|]. intros W. apply Y. right; exact W.
  - apply IH; assumption.
Qed.

(** ** Asking for the interface *)
Record cached_ok (s : st) : Prop := {
  co_idx : forall i h, nth_error (libs s) i = Some (Some h) -> h = i;
  co_nodup : NoDup (opened s);
  co_open : forall h, In h (opened s) <-> nth_error (libs s) h = Some (Some h);
  co_vt : forall h, In h (opened s) -> vt s h = Game h
}.

(** everything except the libraries *)
Definition same_rest (s s' : st) : Prop :=
  length (libs s') = length (libs s) /\ glib s' = glib s /\ iface s' = iface s /\ orig_init s' = orig_init s /\
  orig_shutdown s' = orig_shutdown s /\ bridge s' = bridge s /\ core s' = core s /\ trace s' = trace s.
Lemma same_rest_refl s : same_rest s s. Proof. repeat split. Qed.
Lemma same_rest_trans a b c : same_rest a b -> same_rest b c -> same_rest a c.
Proof. unfold same_rest. intuition congruence. Qed.

Lemma cached_load s i : cached_ok s -> nth_error (libs s) i = Some None ->
  let s1 := set_libs (load s i) (set_nth (libs (load s i)) i (Some i)) in
  cached_ok s1 /\ same_rest s s1 /\ In i (opened s1).
Proof.
  intros [C1 C2 C3 C4] Hi.
  assert (Hno : ~ In i (opened s)) by (rewrite C3, Hi; discriminate).
  assert (Hc : is_open s i = false) by (destruct (is_open s i) eqn:E; [apply is_open_in in E; contradiction|reflexivity]).
  assert (Hlen : i < length (libs s)) by (apply nth_error_Some; rewrite Hi; discriminate).
  unfold load. rewrite Hc. cbn zeta. split; [|split; [|left; reflexivity]].
  - constructor; cbn [libs opened vt set_libs set_opened on_table set_vt].
    + intros j h. rewrite nth_set_nth. destruct (Nat.eqb_spec j i) as [-> | Hj]; cbn [andb].
      * apply Nat.ltb_lt in Hlen. rewrite Hlen. intros [= <-]. reflexivity.
      * apply C1.
    + constructor; assumption.
    + intros h. rewrite nth_set_nth. cbn [In]. destruct (Nat.eqb_spec h i) as [-> | Hj]; cbn [andb].
      * apply Nat.ltb_lt in Hlen. rewrite Hlen. split; auto.
      * rewrite <- C3. split; [intros [E|H]; [congruence|exact H]|auto].
    + intros h [<- | H]; [rewrite Nat.eqb_refl; reflexivity|].
      destruct (Nat.eqb_spec h i) as [-> | Hj]; [contradiction|]. apply C4; exact H.
  - unfold same_rest. cbn. rewrite set_nth_length. repeat split.
Qed.

Lemma req_loop_spec al : forall s i, cached_ok s -> i + length al = length (libs s) ->
  exists s' r, req_loop s i al = Some (s', r) /\ same_rest s s' /\
    match r with
    | None => cached_ok s'
    | Some h => nth_error (libs s') h = Some None /\ (forall i h, nth_error (libs s') i = Some (Some h) -> h = i) /\
                NoDup (opened s') /\ (forall x, In x (opened s') <-> x = h \/ nth_error (libs s') x = Some (Some x)) /\
                (forall x, In x (opened s') -> vt s' x = Game x)
    end.
Proof.
  induction al as [|a al IH]; intros s i C Hl; cbn [req_loop].
  - exists s, None. split; [reflexivity|]. split; [apply same_rest_refl|exact C].
  - cbn [length] in Hl.
    assert (Hi : i < length (libs s)) by lia.
    destruct (nth_error (libs s) i) as [c|] eqn:Ec; [|apply nth_error_None in Ec; lia].
    assert (Hgo : forall s1, cached_ok s1 -> same_rest s s1 -> In i (opened s1) ->
      exists s' r, (if negb (is_open s1 i) then None
                    else if negb (a_qvi a) then req_loop s1 (S i) al
                    else if a_ptr a then Some (set_libs s1 (set_nth (libs s1) i None), Some i)
                    else req_loop s1 (S i) al) = Some (s', r) /\ same_rest s s' /\
        match r with
        | None => cached_ok s'
        | Some h => nth_error (libs s') h = Some None /\ (forall i h, nth_error (libs s') i = Some (Some h) -> h = i) /\
                    NoDup (opened s') /\ (forall x, In x (opened s') <-> x = h \/ nth_error (libs s') x = Some (Some x)) /\
                    (forall x, In x (opened s') -> vt s' x = Game x)
        end).
    { intros s1 C1 R1 Hin. rewrite (proj2 (is_open_in s1 i) Hin). cbn [negb].
      assert (L1 : length (libs s1) = length (libs s)) by apply R1.
      assert (Hrec : exists s' r, req_loop s1 (S i) al = Some (s', r) /\ same_rest s s' /\
        match r with
        | None => cached_ok s'
        | Some h => nth_error (libs s') h = Some None /\ (forall i h, nth_error (libs s') i = Some (Some h) -> h = i) /\
                    NoDup (opened s') /\ (forall x, In x (opened s') <-> x = h \/ nth_error (libs s') x = Some (Some x)) /\
                    (forall x, In x (opened s') -> vt s' x = Game x)
        end).
      { destruct (IH s1 (S i) C1) as (s' & r & E & R & K); [lia|]. exists s', r. split; [exact E|].
        split; [exact (same_rest_trans _ _ _ R1 R)|exact K]. }
      destruct (negb (a_qvi a)); [exact Hrec|]. destruct (a_ptr a); [|exact Hrec].
      destruct C1 as [K1 K2 K3 K4].
      exists (set_libs s1 (set_nth (libs s1) i None)), (Some i). split; [reflexivity|]. split.
      { destruct R1 as (?&?&?&?&?&?&?&?). unfold same_rest. cbn. rewrite set_nth_length. repeat split; assumption. }
      cbn [libs opened vt set_libs]. split; [|split; [|split; [exact K2|split; [|exact K4]]]].
      - rewrite nth_set_nth, Nat.eqb_refl. rewrite (proj2 (Nat.ltb_lt _ _)) by lia. reflexivity.
      - intros j h. rewrite nth_set_nth. destruct ((j =? i) && (i <? length (libs s1))); [discriminate|apply K1].
      - intros x. rewrite nth_set_nth. destruct (Nat.eqb_spec x i) as [-> | Hx]; cbn [andb].
        + split; auto.
        + rewrite K3. split; [auto|intros [E|H]; [congruence|exact H]]. }
    destruct c as [h|].
    + pose proof (co_idx s C i h Ec) as ->. apply Hgo; [exact C|apply same_rest_refl|].
      apply (co_open s C). exact Ec.
    + destruct (a_load a).
      * destruct (cached_load s i C Ec) as (C1 & R1 & H1). apply Hgo; assumption.
      * destruct (IH s (S i) C) as (s' & r & E & R & K); [lia|]. exists s', r. auto.
Qed.

Definition asking (paths : nat) (s : st) : Prop :=
  cached_ok s /\ length (libs s) = paths /\ glib s = None /\ iface s = None /\ orig_init s = Null /\
  orig_shutdown s = Null /\ bridge s = false /\ core s = false /\ trace s = [].

Record have (h : nat) (s : st) : Prop := {
  hv_iface : iface s = Some h; hv_glib : glib s = Some h; hv_open : opened s = [h];
  hv_vt : forall j, vt s h j = if j =? 0 then TInit else Game h j;
  hv_oi : orig_init s = Game h 0; hv_os : orig_shutdown s = Null; hv_b : bridge s = false; hv_c : core s = false;
  hv_t : trace s = []
}.

Lemma nodup_single (l : list nat) h : NoDup l -> (forall x, In x l <-> x = h) -> l = [h].
Proof.
  intros Hn H. destruct l as [|a [|b l]].
  - destruct (proj2 (H h) eq_refl).
  - f_equal. apply H. left; reflexivity.
  - assert (a = h) by (apply H; left; reflexivity). assert (b = h) by (apply H; right; left; reflexivity). subst.
    inversion Hn as [|? ? Ha]; subst. destruct Ha. left; reflexivity.
Qed.

Lemma request_spec paths s al : asking paths s -> length al = paths ->
  exists s' r, GameDllRequest s al = Some (s', r) /\ if r then exists h, h < paths /\ have h s' else asking paths s'.
Proof.
  intros (C & L & A1 & A2 & A3 & A4 & A5 & A6 & A7) Hal. unfold GameDllRequest.
  destruct (req_loop_spec al s 0 C) as (s1 & r & -> & (R0&R1&R2&R3&R4&R5&R6&R7) & K); [cbn; congruence|].
  destruct r as [h|].
  - destruct K as (K1 & K2 & K3 & K4 & K5).
    destruct (somes_indexed (libs s1) 0 K2) as [N _].
    destruct (free_cached_spec (libs s1) s1 K3 N) as (o & -> & No & Ho).
    { intros x Hx. apply in_somes in Hx. apply In_nth_error in Hx. destruct Hx as (j & Hj).
      pose proof (K2 _ _ Hj) as ->. apply K4. auto. }
    cbn [PatchDllInit iface set_iface vt set_glib set_opened]. eexists _, true. split; [reflexivity|].
    exists h. split.
    { apply (f_equal (fun x => match x with Some _ => true | None => false end)) in K1. 
      assert (h < length (libs s1)) by (apply nth_error_Some; destruct (nth_error (libs s1) h); congruence). lia. }
    assert (Eo : o = [h]).
    { apply nodup_single; [exact No|]. intros x. rewrite Ho, K4, in_somes. split.
      - intros ([E|E] & Hn); [exact E|]. apply nth_error_In in E. contradiction.
      - intros ->. split; [auto|]. intros Hin. apply In_nth_error in Hin. destruct Hin as (j & Hj).
        pose proof (K2 _ _ Hj) as ->. congruence. }
    assert (Ev : vt s1 h = Game h) by (apply K5, K4; auto).
    constructor; cbn; try congruence.
    + intros j. rewrite Nat.eqb_refl. rewrite Ev. reflexivity.
  - exists s1, false. split; [reflexivity|]. unfold asking. repeat split; try congruence; apply K.
Qed.

(** ** DLLInit *)
Definition upd_table (s : st) (h : nat) (t : table) : nat -> table := fun k => if k =? h then t else vt s k.

Lemma DLLInit_none s o h : iface s = Some h -> bridge s = false ->
  core_up o = false -> o_result o = false -> DLLInit s o = None.
Proof.
  intros Hi Hb Hu Hr. unfold DLLInit, core_up in *. rewrite Hr. cbn [negb].
  destruct (o_known o), (o_load o), (o_getbridge o), (o_pre o); try discriminate Hu; cbn;
    rewrite ?Hi; cbn; rewrite ?Hb; cbn; destruct (is_init (orig_init s)); cbn; rewrite ?Hb; reflexivity.
Qed.

Lemma DLLInit_spec s o h a : iface s = Some h -> bridge s = false -> core s = false -> orig_init s = a -> a <> TInit ->
  core_up o = true \/ o_result o = true ->
  exists s', DLLInit s o = Some (s', o_result o) /\
    (forall j, vt s' h j = if j =? 0 then a
                           else if core_up o && o_result o && (j =? o_index o) then TShutdown
                           else others o (vt s h) j) /\
    (forall k, k <> h -> vt s' k = vt s k) /\
    trace s' = trace s ++ CallInit a :: (if core_up o && negb (o_result o) then [CoreUnload] else []) /\
    bridge s' = core_up o && o_result o /\ core s' = core_up o && o_result o /\
    orig_init s' = Null /\ iface s' = Some h /\ glib s' = glib s /\ opened s' = opened s /\ libs s' = libs s /\
    orig_shutdown s' = (if core_up o && o_result o then others o (vt s h) (o_index o) else orig_shutdown s).
Proof.
  intros Hi Hb Hc Ha Hna Hor.
  assert (Hm : is_init a = false) by (destruct a; try reflexivity; congruence).
  unfold DLLInit, others, core_up, pre_called in *.
  destruct (o_known o), (o_load o), (o_getbridge o), (o_pre o), (o_result o); cbn [andb negb] in *;
    try (destruct Hor; discriminate);
    cbn [iface bridge orig_init set_bridge set_core on_table set_vt log vt]; rewrite ?Hi, ?Hb, ?Ha;
    cbn [iface bridge orig_init set_bridge set_core on_table set_vt log vt]; rewrite ?Hi, ?Hb, ?Ha, Hm;
    unfold PatchDllShutdown, PatchDllInit; cbn; rewrite ?Hi, ?Hb, ?Ha; cbn; rewrite ?Hi, ?Hb, ?Ha; cbn;
    eexists; (split; [reflexivity|]); cbn; rewrite ?Nat.eqb_refl; cbn;
    (split; [intros j; rewrite ?Nat.eqb_refl; unfold set_slot; destruct (j =? 0); cbn;
             rewrite ?Nat.eqb_refl; try destruct (j =? o_index o); reflexivity|]);
    (split; [intros k Hk; apply Nat.eqb_neq in Hk; rewrite ?Hk; reflexivity|]);
    repeat split; rewrite <- ?app_assoc; auto.
Qed.

Lemma others_sd o sd (t : table) a : sd <> 0 -> benign sd (e_pre o) -> benign sd (e_game o) -> benign sd (e_post o) ->
  t sd = a -> others o t sd = a \/ exists n, others o t sd = Other n.
Proof.
  intros H0 B1 B2 B3 Ht. unfold others.
  assert (K : forall f (u : table), benign sd f -> (u sd = a \/ exists n, u sd = Other n) -> f u sd = a \/ exists n, f u sd = Other n).
  { intros f u B H. destruct (B u) as [E|E]; [rewrite E; exact H|right; exact E]. }
  assert (K1 : let t1 := if pre_called o then e_pre o t else t in t1 sd = a \/ exists n, t1 sd = Other n).
  { cbn zeta. destruct (pre_called o); [apply K; auto|auto]. }
  cbn zeta in *. destruct (core_up o && o_result o); [apply (K _ _ B3)|]; apply (K _ _ B2); exact K1.
Qed.

(** ** The phases *)
Record running (sd : nat) (c : bool) (h : nat) (s : st) : Prop := {
  rn_iface : iface s = Some h; rn_glib : glib s = Some h; rn_open : opened s = [h];
  rn_init : vt s h 0 = Game h 0;
  rn_sd : if c then vt s h sd = TShutdown else vt s h sd = Game h sd \/ exists n, vt s h sd = Other n;
  rn_os : c = true -> orig_shutdown s = Game h sd \/ exists n, orig_shutdown s = Other n;
  rn_b : bridge s = c; rn_c : core s = c; rn_oi : orig_init s = Null; rn_t : trace s = [CallInit (Game h 0)]
}.
Record failed (sd : nat) (h : nat) (s : st) : Prop := {
  fl_iface : iface s = Some h; fl_glib : glib s = Some h; fl_open : opened s = [h];
  fl_init : vt s h 0 = Game h 0;
  fl_sd : vt s h sd = Game h sd \/ exists n, vt s h sd = Other n;
  fl_b : bridge s = false; fl_c : core s = false; fl_t : trace s = [CallInit (Game h 0); CoreUnload]
}.
Record down (sd : nat) (c : bool) (h : nat) (s : st) : Prop := {
  dn_open : opened s = if c then [] else [h];
  dn_init : vt s h 0 = Game h 0;
  dn_b : bridge s = false; dn_c : core s = false;
  dn_t : exists a, (a = Game h sd \/ exists n, a = Other n) /\
         trace s = CallInit (Game h 0) :: (if c then [CoreUnload] else []) ++ [CallShutdown a]
}.

Definition good (paths sd : nat) (p : phase) (s : st) : Prop :=
  match p with
  | Asking => asking paths s
  | Have => exists h, h < paths /\ have h s
  | Running c => exists h, h < paths /\ running sd c h s
  | Failed => exists h, h < paths /\ failed sd h s
  | Down c => exists h, h < paths /\ down sd c h s
  end.

Lemma asking_start paths : asking paths (start paths).
Proof.
  unfold asking, start. cbn. rewrite repeat_length. repeat split; auto.
  - cbn. intros i h E. apply nth_error_In in E. apply repeat_spec in E. discriminate.
  - constructor.
  - intros [].
  - cbn. intros E. apply nth_error_In in E. apply repeat_spec in E. discriminate.
Qed.

Lemma have_init sd h s o : sd <> 0 -> have h s -> o_index o = sd ->
  benign sd (e_pre o) -> benign sd (e_game o) -> benign sd (e_post o) -> core_up o = true \/ o_result o = true ->
  exists s', step sd s (CallInitSlot o) = Some s' /\
    if o_result o then running sd (core_up o) h s' else failed sd h s'.
Proof.
  intros H0 [V1 V2 V3 V4 V5 V6 V7 V8 V9] Ho B1 B2 B3 Hor.
  destruct (DLLInit_spec s o h (Game h 0) V1 V7 V8 V5) as (s' & E & T1 & T2 & T3 & T4 & T5 & T6 & T7 & T8 & T9 & T10 & T11);
    [discriminate|exact Hor|].
  exists s'. split.
  { cbn [step]. rewrite V1. rewrite (V4 0). cbn [Nat.eqb]. rewrite E. reflexivity. }
  assert (Hs : vt s h sd = Game h sd) by (rewrite V4; destruct (Nat.eqb_spec sd 0); [contradiction|reflexivity]).
  pose proof (others_sd o sd (vt s h) _ H0 B1 B2 B3 Hs) as Hoth.
  assert (Hsd : vt s' h sd = if core_up o && o_result o then TShutdown else others o (vt s h) sd).
  { rewrite T1, Ho, Nat.eqb_refl, andb_true_r. destruct (Nat.eqb_spec sd 0); [contradiction|].
    destruct (core_up o && o_result o); reflexivity. }
  rewrite V9 in T3.
  destruct (o_result o) eqn:Er.
  - cbn [negb] in *. rewrite ?andb_true_r, ?andb_false_r in *.
    constructor; try congruence.
    + rewrite T1. reflexivity.
    + destruct (core_up o); rewrite Hsd; [reflexivity|exact Hoth].
    + intros Hc. rewrite Hc in T11. rewrite T11, Ho. exact Hoth.
    + exact T3.
  - destruct Hor as [Hu|Hu]; [|discriminate]. rewrite ?andb_false_r in *. rewrite Hu in *. cbn [negb andb] in T3.
    constructor; try congruence.
    + rewrite T1. reflexivity.
    + rewrite Hsd. exact Hoth.
    + exact T3.
Qed.

Lemma running_down sd c h s : running sd c h s ->
  exists s', step sd s CallShutdownSlot = Some s' /\ down sd c h s'.
Proof.
  intros [V1 V2 V3 V4 V5 V6 V7 V8 V9 V10]. cbn [step]. rewrite V1.
  destruct c.
  - rewrite V5. unfold DLLShutdown. rewrite V7. cbn. rewrite V2. unfold unload, is_open. cbn. rewrite V3. cbn.
    rewrite Nat.eqb_refl. cbn. eexists. split; [reflexivity|]. constructor; cbn; auto.
    exists (orig_shutdown s). split; [apply V6; reflexivity|]. rewrite V10. reflexivity.
  - assert (K : exists a, (a = Game h sd \/ exists n, a = Other n) /\ vt s h sd = a) by (exists (vt s h sd); auto).
    destruct K as (a & Ha & E). rewrite E. exists (log s (CallShutdown a)). split.
    + destruct Ha as [-> | (n & ->)]; reflexivity.
    + constructor; cbn; auto. exists a. split; [exact Ha|]. rewrite V10. reflexivity.
Qed.

Lemma reach_good paths sd p s : sd <> 0 -> reach paths sd p s -> good paths sd p s.
Proof.
  intros H0 R. induction R as [|s al s' R IH L E|s al s' R IH L E|s o s' R IH Ho B1 B2 B3 E|s c s' R IH E].
  - apply asking_start.
  - destruct (request_spec paths s al IH L) as (s2 & r & E2 & K). rewrite E in E2. injection E2 as <- <-. exact K.
  - destruct (request_spec paths s al IH L) as (s2 & r & E2 & K). rewrite E in E2. injection E2 as <- <-. exact K.
  - destruct IH as (h & Hh & V).
    assert (Hor : core_up o = true \/ o_result o = true).
    { destruct (core_up o) eqn:Eu; auto. destruct (o_result o) eqn:Er; auto. exfalso.
      cbn [step] in E. rewrite (hv_iface h s V) in E. rewrite (hv_vt h s V 0) in E. cbn [Nat.eqb] in E.
      rewrite (DLLInit_none s o h (hv_iface h s V) (hv_b h s V) Eu Er) in E. discriminate. }
    destruct (have_init sd h s o H0 V Ho B1 B2 B3 Hor) as (s2 & E2 & K). rewrite E in E2. injection E2 as <-.
    destruct (o_result o); exists h; auto.
  - destruct IH as (h & Hh & V). destruct (running_down sd c h s V) as (s2 & E2 & K). rewrite E in E2. injection E2 as <-.
    exists h; auto.
Qed.
