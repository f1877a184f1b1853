(** Hooks that are still to be run in a call are not forgotten. *)
From Coq Require Import List Bool Arith ZArith Lia Sorted.
From Verif Require Import Base ProtoModel ShModel ShRun ShLists ShInv ShHooks ShAdd ShApi ShHist ShGood ShSpec ShView ShAbs ShRel ShCalls ShMoves ShChange ShFollow ShRefine ShTrace ShLoop.
Import ListNotations.
Local Open Scope nat_scope.

(** ** What lies below the running function stays *)
Fixpoint lastaft (aft : after) (N : list aframe) : after :=
  match N with [] => aft | g :: N' => lastaft (af_after g) N' end.
Definition is_hook (f : aframe) : Prop := af_hook f <> None.

Lemma take_ign_below : forall N f B A1, is_hook f -> take_ign (N ++ f :: B) = Some A1 ->
  exists N1, A1 = N1 ++ f :: B /\ length N1 = length N /\ lastaft APlain N1 = lastaft APlain N.
Proof.
  induction N as [|g N IH]; intros f B A1 Hf E; cbn [app take_ign] in E.
  - unfold is_hook in Hf. destruct (af_hook f); [discriminate|congruence].
  - destruct (af_hook g) eqn:Eg; [discriminate|]. destruct (af_ign g).
    + injection E as <-. eexists (_ :: N). repeat split.
    + destruct (take_ign (N ++ f :: B)) as [r|] eqn:Er; [|discriminate]. injection E as <-.
      destruct (IH f B r Hf Er) as (N1 & -> & L & La). exists (g :: N1). cbn [app length lastaft]. repeat split; [lia|].
      destruct N, N1; try discriminate; [reflexivity|exact La].
Qed.
Lemma unwind_below : forall h N f B aft z w, is_hook f -> is_rec (lastaft aft N) = false ->
  exists N', as_fr (a_unwind h aft z (N ++ f :: B) w) = N' ++ f :: B.
Proof.
  intros h. induction N as [|g N IH]; intros f B aft z w Hf L; destruct aft; cbn [a_unwind app] in *; try (eexists; reflexivity).
  - exists []. reflexivity.
  - unfold a_reset. destruct (take_ign (f :: B)) as [r|] eqn:E; [|exists []; reflexivity].
    destruct (take_ign_below [] f B r Hf E) as (N1 & -> & _). exists N1. reflexivity.
  - discriminate L.
  - exists (g :: N). reflexivity.
  - unfold a_reset. destruct (take_ign (g :: N ++ f :: B)) as [r|] eqn:E; [|exists (g :: N); reflexivity].
    destruct (take_ign_below (g :: N) f B r Hf E) as (N1 & -> & _). exists N1. reflexivity.
  - destruct (af_hook g) as [a|]; [|exists (g :: N); reflexivity].
    destruct (a_done _ _ _ _ _ _) as [a' w'|z' w']; cbn [as_fr]; [eexists (_ :: N); reflexivity|].
    apply IH; auto.
Qed.
Lemma resume_below : forall h o F aft N f B, is_hook f -> is_rec (lastaft aft N) = false ->
  exists N', as_fr (a_resume h o F aft (N ++ f :: B)) = N' ++ f :: B.
Proof.
  intros h o F aft N f B Hf L. destruct o as [a w|z w]; cbn [a_resume as_fr]; [eexists (_ :: N); reflexivity|]. now apply unwind_below.
Qed.

(** The function on top acts: nothing changes below, except that functions
    return.  [f] is not waiting for a recall. *)
Lemma astep_below : forall h h' N f B p e x, runs e = true -> is_hook f -> N <> [] -> is_rec (lastaft APlain N) = false ->
  astep h h' (N ++ f :: B) p e = Some x -> exists N', as_fr x = N' ++ f :: B.
Proof.
  intros h h' N f B p e x Hr Hf Nn L E. destruct N as [|g N]; [congruence|]. cbn [lastaft] in L.
  destruct e as [this vo idx q|this vo idx q|z|m|res val offs vo idx q| | | | | | | | | |]; try discriminate; cbn [astep app] in E.
  - destruct (is_hookcode _); [|injection E as <-; exists (AFrame (h_nxt h) APlain false None :: g :: N); reflexivity].
    destruct (take_ign (g :: N ++ f :: B)) as [A1|] eqn:Et; injection E as <-.
    + destruct (take_ign_below (g :: N) f B A1 Hf Et) as (N1 & -> & Ln & La). apply resume_below; auto. rewrite La. exact L.
    + apply (resume_below h _ _ APlain (g :: N)); auto.
  - injection E as <-. destruct (is_hookcode _); [|exists (AFrame (h_nxt h) AReset true None :: g :: N); reflexivity].
    apply (resume_below h _ _ AReset (g :: N)); auto.
  - destruct (af_hook g) as [a|].
    + destruct (a_run a) as [r|]; injection E as <-; apply resume_below; auto.
    + injection E as <-. destruct (af_ign g).
      * destruct (af_after g) eqn:Ea; cbn [as_fr]; eauto; exists (g :: N); reflexivity.
      * apply unwind_below; auto.
  - destruct (af_hook g) as [a|]; [|discriminate]. destruct (a_run a); [|discriminate]. injection E as <-. cbn [as_fr]. eexists (_ :: N). reflexivity.
  - destruct (af_hook g) as [a|]; [|discriminate]. destruct (a_run a) as [[vp n]|]; [|discriminate]. injection E as <-.
    unfold a_recall. apply (resume_below h _ _ ARecall (_ :: N)); auto.
Qed.
Lemma stack_last : forall m0 h t N f B a, stack_ok m0 h t false (N ++ f :: B) -> af_hook f = Some a ->
  (a_alive a = true \/ vw_rec (see t (af_id f)) = false) -> is_rec (lastaft APlain N) = false.
Proof.
  intros m0 h t N f B a S Eh D.
  assert (G : forall N susp aft, stack_ok m0 h t susp (N ++ f :: B) -> susp = is_rec aft -> is_rec (lastaft aft N) = false).
  { clear S N. induction N as [|g N IH]; intros susp aft S E; cbn [app lastaft stack_ok] in *.
    - rewrite Eh in S. destruct S as [[[B0 _] _] _]. destruct (is_rec aft) eqn:R; [|reflexivity]. subst susp.
      pose proof (b_susp _ _ _ _ _ B0 eq_refl) as Hs. destruct D as [D|D]; [|congruence].
      destruct (b_rec _ _ _ _ _ B0 Hs). congruence.
    - destruct S as [_ S]. eapply IH; eauto. }
  eapply G; eauto.
Qed.

(** ** The next handler *)
Definition before (x y : bool * hook) : Prop :=
  match fst x, fst y with
  | false, true => True
  | true, false => False
  | _, _ => hk_nid (snd x) < hk_nid (snd y)
  end.
Lemma sorted_find : forall (A : Type) (R : A -> A -> Prop) p l x y, StronglySorted R l -> find p l = Some x -> In y l -> p y = true ->
  x = y \/ R x y.
Proof.
  intros A R p l x y S. induction S as [|z l S IH F]; intros E I' P; cbn [find] in E; [discriminate|].
  destruct (p z) eqn:Ez.
  - injection E as <-. destruct I' as [->|I']; [now left|right]. rewrite Forall_forall in F. auto.
  - destruct I' as [->|I']; [congruence|]. auto.
Qed.
Lemma sorted_filter : forall (A : Type) (R : A -> A -> Prop) p l, StronglySorted R l -> StronglySorted R (filter p l).
Proof.
  intros A R p l S. induction S as [|z l S IH F]; cbn [filter]; [constructor|]. destruct (p z); [|exact IH].
  constructor; [exact IH|]. rewrite Forall_forall in *. intros y I'. apply filter_In in I'. apply F. tauto.
Qed.
Lemma sorted_map : forall (A B : Type) (R : B -> B -> Prop) (f : A -> B) l, StronglySorted R (map f l) -> StronglySorted (fun x y => R (f x) (f y)) l.
Proof.
  intros A B R f l. induction l as [|x l IH]; intros S; cbn [map] in *; [constructor|]. inversion S as [|? ? S1 F1]. constructor; [auto|].
  rewrite Forall_forall in *. intros y I'. apply F1. now apply in_map.
Qed.
Lemma sorted_map' : forall (A B : Type) (R : B -> B -> Prop) (f : A -> B) l, StronglySorted (fun x y => R (f x) (f y)) l -> StronglySorted R (map f l).
Proof.
  intros A B R f l S. induction S as [|x l S IH F]; cbn [map]; [constructor|]. constructor; [exact IH|].
  rewrite Forall_forall in *. intros y I'. apply in_map_iff in I'. destruct I' as (z & <- & I'). auto.
Qed.
Lemma sorted_app : forall (A : Type) (R : A -> A -> Prop) l l', StronglySorted R l -> StronglySorted R l' ->
  (forall x y, In x l -> In y l' -> R x y) -> StronglySorted R (l ++ l').
Proof.
  intros A R l l' S S' X. induction S as [|x l S IH F]; cbn [app]; [exact S'|]. constructor.
  - apply IH. intros y z Hy Hz. apply X; [now right|exact Hz].
  - apply Forall_app. split; [exact F|]. rewrite Forall_forall. intros y Hy. apply X; [now left|exact Hy].
Qed.

Section Next.
Variable h : hs.
Hypothesis W : WH h.
Lemma installed_lt : forall s a p, StronglySorted (fun x y => hk_nid x < hk_nid y) (installed h s a p).
Proof. intros s a p. apply (sorted_map hook nat lt hk_nid). apply installed_sorted. exact W. Qed.
Lemma todo_sorted : forall a post from, StronglySorted before (todo h a post from).
Proof.
  intros a post from. unfold todo. destruct (a_alive a); [|constructor].
  assert (S1 : forall l vp, StronglySorted (fun x y => hk_nid x < hk_nid y) l -> StronglySorted before (map (pair vp) l)).
  { intros l vp S. apply sorted_map'. eapply StronglySorted_ind with (R := fun x y => hk_nid x < hk_nid y); [| |exact S]; [constructor|].
    intros x l' S' IH F. constructor; [exact IH|]. eapply Forall_impl; [|exact F]. intros y. unfold before. cbn [fst snd]. destruct vp; auto. }
  assert (So : StronglySorted (fun x y => hk_nid x < hk_nid y) (if a_seen a then installed h (a_slot a) (a_this a) post else [])).
  { destruct (a_seen a); [apply installed_lt|constructor]. }
  assert (X : forall l l' x y, In x (map (pair false) l) -> In y (map (pair true) l') -> before x y).
  { intros l l' x y Hx Hy. apply in_map_iff in Hx. apply in_map_iff in Hy. destruct Hx as (u & <- & _). destruct Hy as (v & <- & _). exact I. }
  destruct from as [[[|] n]|].
  - apply S1. apply sorted_filter. apply installed_lt.
  - apply sorted_app; [apply S1; now apply sorted_filter|apply S1; apply installed_lt|apply X].
  - apply sorted_app; [apply S1; exact So|apply S1; apply installed_lt|apply X].
Qed.

(** Not passed yet *)
Definition unpassed (from : option (bool * nat)) (vp : bool) (n : nat) : Prop :=
  match from with
  | None => True
  | Some (vp0, n0) => match vp0, vp with false, true => True | true, false => False | _, _ => n0 < n end
  end.
Lemma in_todo : forall a post from vp k, In (vp, k) (todo h a post from) <->
  a_alive a = true /\ (vp = false -> a_seen a = true) /\ In k (installed h (a_slot a) (if vp then 0%Z else a_this a) post) /\ unpassed from vp (hk_nid k).
Proof.
  intros a post from vp k. unfold todo, unpassed, later. destruct (a_alive a); [|split; [contradiction|intros [H _]; discriminate]].
  assert (M : forall b l, In (vp, k) (map (pair b) l) <-> vp = b /\ In k l).
  { intros b l. rewrite in_map_iff. split; [intros (y & E & I'); injection E as <- <-; auto|intros [-> I']; eauto]. }
  assert (Q : In k (if a_seen a then installed h (a_slot a) (a_this a) post else []) <-> a_seen a = true /\ In k (installed h (a_slot a) (a_this a) post)).
  { destruct (a_seen a); cbn; intuition congruence. }
  destruct from as [[[|] n]|]; rewrite ?in_app_iff, ?M, ?filter_In, ?Nat.ltb_lt, ?Q; destruct vp; intuition congruence.
Qed.
Lemma next_progress : forall a post from vp k, In (vp, k) (todo h a post from) -> hk_paused k = false ->
  exists vp' k', next h a post from = Some (vp', k') /\ ((vp', k') = (vp, k) \/ In (vp, k) (todo h a post (Some (vp', hk_nid k')))).
Proof.
  intros a post from vp k I' P. unfold next.
  destruct (find (fun x => negb (hk_paused (snd x))) (todo h a post from)) as [[vp' k']|] eqn:E.
  - exists vp', k'. split; [reflexivity|]. destruct (sorted_find _ _ _ _ _ (vp, k) (todo_sorted a post from) E I') as [->|B]; [cbn; now rewrite P|now left|right].
    apply in_todo in I'. apply in_todo. destruct I' as (H1 & H2 & H3 & _). repeat split; auto.
  - apply (find_none _ _ E) in I'. cbn in I'. rewrite P in I'. discriminate.
Qed.
(** Exactly the active hooks, one after the other *)
Lemma next_active : forall a post from x, next h a post from = Some x ->
  active (map snd (todo h a post from)) = snd x :: active (map snd (todo h a post (Some (fst x, hk_nid (snd x))))).
Proof.
  intros a post from [vp k] E. cbn [fst snd].
  assert (Ti : forall y, In y (todo h a post (Some (vp, hk_nid k))) <-> In y (todo h a post from) /\ before (vp, k) y).
  { unfold next in E. apply find_some in E. destruct E as [I0 _]. apply in_todo in I0.
    intros [vp1 k1]. rewrite !in_todo. unfold before, unpassed. cbn [fst snd].
    destruct I0 as (H1 & H2 & H3 & H4). unfold unpassed in H4. destruct from as [[vp0 n0]|]; destruct vp, vp1; try destruct vp0; intuition (auto; lia). }
  pose proof (todo_sorted a post from) as S. pose proof (todo_sorted a post (Some (vp, hk_nid k))) as S'.
  unfold next in E. revert S Ti E. generalize (todo h a post from). intros l. unfold active.
  revert S'. generalize (todo h a post (Some (vp, hk_nid k))). intros l' S'. induction l as [|y l IH]; intros S Ti E; [discriminate|].
  inversion S as [|? ? S1 F1]; subst. cbn [find] in E. cbn [map filter]. destruct (hk_paused (snd y)) eqn:P; cbn [negb] in E |- *.
  - apply IH; auto. intros z. rewrite Ti. split; [intros [[<-|I'] B]; [|auto]|intros [I' B]; split; [now right|exact B]].
    exfalso. pose proof (find_some _ _ E) as [I0 _]. rewrite Forall_forall in F1. specialize (F1 _ I0). revert F1 B. unfold before.
    destruct y as [[|] ky]; destruct vp; cbn; lia.
  - injection E as ->. cbn [snd] in *. f_equal. f_equal.
    (* the rest of the list *)
    assert (El : l' = l); [|now rewrite El].
    assert (Hb : forall z, In z l' <-> In z l).
    { intros z. rewrite Ti. rewrite Forall_forall in F1. split; [intros [[<-|I'] B]; [|exact I']|intros I'; split; [now right|auto]].
      exfalso. revert B. unfold before. destruct vp; cbn; lia. }
    clear - S1 S' Hb. assert (Irr : forall z, ~ before z z) by (intros [[|] kz]; unfold before; cbn; lia).
    assert (Asym : forall y z, before y z -> before z y -> False) by (intros [[|] ky] [[|] kz]; unfold before; cbn; lia).
    revert l' S' Hb. induction S1 as [|y l S1 IH F1]; intros l' S' Hb.
    + destruct l' as [|z l']; [reflexivity|]. exfalso. apply (proj1 (Hb z)). now left.
    + destruct S' as [|z l' S' F']; [exfalso; apply (proj2 (Hb y)); now left|].
      rewrite Forall_forall in F1, F'.
      assert (y = z). { destruct (proj1 (Hb z) (or_introl eq_refl)) as [E|E]; [exact E|]. destruct (proj2 (Hb y) (or_introl eq_refl)) as [E'|E']; [now symmetry|].
        exfalso. eapply Asym; eauto. }
      subst z. f_equal. apply IH; auto. intros z. split; intros I'.
      * destruct (proj1 (Hb z) (or_intror I')) as [->|I2]; [|exact I2]. exfalso. apply (Irr z). auto.
      * destruct (proj2 (Hb z) (or_intror I')) as [->|I2]; [|exact I2]. exfalso. apply (Irr z). auto.
Qed.
Lemma next_none : forall a post from, next h a post from = None -> active (map snd (todo h a post from)) = [].
Proof.
  intros a post from E. unfold active. unfold next in E. induction (todo h a post from) as [|y l IH]; [reflexivity|]. cbn [find map filter] in *.
  destruct (negb (hk_paused (snd y))); [discriminate|auto].
Qed.
End Next.

(** ** Hooks ahead *)
Definition live (h : hs) (slot adj : Z) (post : bool) (n : nat) : Prop :=
  exists k, In k (installed h slot adj post) /\ hk_nid k = n /\ hk_paused k = false.
Definition ahead (a : ahook) (post vp : bool) (n : nat) : Prop :=
  a_alive a = true /\ (vp = false -> a_seen a = true) /\
  match a_phase a, post with
  | PPre, false | PPost, true => unpassed (a_run a) vp n
  | PPre, true | POrig, true => True
  | _, false => False
  end.
(** A call and the recalls that continue it *)
Inductive continues (t : list obs) (F : nat) : nat -> Prop :=
| co_refl : continues t F F
| co_recall : forall G H s a p, continues t F G -> In (OBegin H s a p (KRecall G)) t -> continues t F H.
Lemma continues_more : forall t l F G, continues t F G -> continues (l ++ t) F G.
Proof. intros t l F G C. induction C as [|G H s a p C IH I']; [constructor|]. eapply co_recall; [exact IH|]. apply in_or_app. right. exact I'. Qed.
Definition was_run (t : list obs) (F n : nat) : Prop :=
  exists G hd ip p, continues t F G /\ In (OHandler G n hd ip p) t.
Lemma was_run_more : forall t l F n, was_run t F n -> was_run (l ++ t) F n.
Proof. intros t l F n (G & hd & ip & p & C & I'). exists G, hd, ip, p. split; [now apply continues_more|apply in_or_app; now right]. Qed.

Fixpoint chain_to (F : nat) (A : list aframe) : Prop :=
  match A with
  | [] => False
  | f :: A' => af_id f = F \/ is_rec (af_after f) = true /\ chain_to F A'
  end.
Lemma chain_in : forall F A, chain_to F A -> In F (map af_id A).
Proof. intros F A. induction A as [|f A IH]; cbn [chain_to map]; [contradiction|]. intros [E|[_ C]]; [now left|right; auto]. Qed.
Lemma chain_ext : forall F A A', map (fun f => (af_id f, af_after f)) A = map (fun f => (af_id f, af_after f)) A' -> chain_to F A -> chain_to F A'.
Proof.
  intros F A. induction A as [|f A IH]; intros [|f' A'] E C; try discriminate; cbn [chain_to map] in *; [contradiction|].
  injection E as E1 E2 E3. rewrite <- E1, <- E2. destruct C as [C|[C1 C2]]; [now left|right; split; auto].
Qed.
Record waiting (A : list aframe) (t : list obs) (F : nat) (slot this : Z) (post vp : bool) (n : nat) (N : list aframe) (f : aframe) (B : list aframe) (a : ahook) : Prop := {
  wt_A : A = N ++ f :: B; wt_h : af_hook f = Some a; wt_ahead : ahead a post vp n;
  wt_slot : a_slot a = slot; wt_this : a_this a = this; wt_chain : chain_to F (f :: B); wt_cont : continues t F (af_id f) }.
Definition waits A t F slot this post vp n : Prop := exists N f B a, waiting A t F slot this post vp n N f B a.

Section Ahead.
Variables (h : hs) (slot this : Z) (post vp : bool) (n : nat).
Hypothesis W : WH h.
Hypothesis L : live h slot (if vp then 0%Z else this) post n.
Definition at_place (a : ahook) : Prop := a_slot a = slot /\ a_this a = this.
Definition goes_on (F : nat) (o : aout) : Prop :=
  (exists hd ip p, In (OHandler F n hd ip p) (w_obs (out_w o))) \/ (exists a' w', o = AStop a' w' /\ ahead a' post vp n /\ at_place a').

Lemma todo_live : forall a from, at_place a -> a_alive a = true -> (vp = false -> a_seen a = true) -> unpassed from vp n ->
  exists k, hk_nid k = n /\ hk_paused k = false /\ In (vp, k) (todo h a post from).
Proof.
  intros a from [E1 E2] Ha Hs U. destruct L as (k & I' & <- & P). exists k. repeat split; auto. apply in_todo. rewrite E1, E2. auto.
Qed.
Lemma start_goes : forall F a from w, at_place a -> a_alive a = true -> (vp = false -> a_seen a = true) -> unpassed from vp n ->
  exists x, next h a post from = Some x /\ goes_on F (a_start F a (if post then PPost else PPre) x w).
Proof.
  intros F a from w E Ha Hs U. destruct (todo_live a from E Ha Hs U) as (k & En & P & I').
  destruct (next_progress h W a post from vp k I' P) as (vp' & k' & Nx & D). exists (vp', k'). split; [exact Nx|].
  unfold a_start. cbn [fst snd]. destruct D as [D|D].
  - injection D as -> ->. left. cbn [out_w wemit w_obs]. rewrite <- En. do 3 eexists. left. reflexivity.
  - right. eexists. eexists. split; [reflexivity|]. split; [|exact E]. apply in_todo in D. destruct D as (_ & _ & _ & D). rewrite En in D.
    split; [exact Ha|]. split; [exact Hs|]. cbn [a_go a_phase a_run]. destruct post; exact D.
Qed.
Lemma post_goes : forall F d a from w, post = true -> at_place a -> a_alive a = true -> (vp = false -> a_seen a = true) -> unpassed from vp n ->
  goes_on F (a_post h F d a from w).
Proof.
  intros F d a from w Ep E Ha Hs U. destruct (start_goes F a from w E Ha Hs U) as (x & Nx & G). unfold a_post. rewrite Ep in Nx. rewrite Nx.
  rewrite Ep in G. exact G.
Qed.
Lemma begin_post_goes : forall F d a from w, post = true -> at_place a -> a_alive a = true -> (vp = false -> a_seen a = true) -> unpassed from vp n ->
  goes_on F (a_begin_post h F d a from w).
Proof. intros. unfold a_begin_post. now apply post_goes. Qed.
Lemma pre_goes : forall F d a from w, at_place a -> a_alive a = true -> (vp = false -> a_seen a = true) -> (post = false -> unpassed from vp n) ->
  goes_on F (a_pre h F d a from w).
Proof.
  intros F d a from w E Ha Hs U. unfold a_pre. destruct (bool_dec post true) as [Ep|Ep]; [|apply not_true_is_false in Ep].
  - destruct (next h a false from) as [x|].
    + right. unfold a_start. eexists. eexists. split; [reflexivity|]. split; [|exact E]. split; [exact Ha|]. split; [exact Hs|].
      cbn [a_go a_phase a_run]. rewrite Ep. exact I.
    + destruct (_ && _).
      * right. eexists. eexists. split; [reflexivity|]. split; [|exact E]. split; [exact Ha|]. split; [exact Hs|]. cbn [a_at a_go a_phase]. rewrite Ep. exact I.
      * apply begin_post_goes; auto. exact I.
  - destruct (start_goes F a from w E Ha Hs (U Ep)) as (x & Nx & G). rewrite Ep in Nx, G. rewrite Nx. exact G.
Qed.
Lemma done_goes : forall F d a z w, at_place a -> ahead a post vp n -> a_run a <> None -> goes_on F (a_done h F d a z w).
Proof.
  intros F d a z w E (Ha & Hs & P) R. unfold a_done. destruct (a_run a) as [[vp0 n0]|] eqn:Er; [|congruence].
  destruct (a_phase a).
  - apply pre_goes; auto. intros Ep. rewrite Ep in P. exact P.
  - apply pre_goes; auto. intros Ep. rewrite Ep in P. contradiction.
  - destruct (bool_dec post true) as [Ep|Ep]; [|apply not_true_is_false in Ep; rewrite Ep in P; contradiction].
    rewrite Ep in P. apply post_goes; auto.
Qed.
End Ahead.

Lemma goes_resume : forall h slot this post vp n F o aft A G t0, goes_on slot this post vp n F o ->
  chain_to G (AFrame F aft false None :: A) -> continues (w_obs (as_w (a_resume h o F aft A)) ++ t0) G F ->
  waits (as_fr (a_resume h o F aft A)) (w_obs (as_w (a_resume h o F aft A)) ++ t0) G slot this post vp n \/
  was_run (w_obs (as_w (a_resume h o F aft A)) ++ t0) G n.
Proof.
  intros h slot this post vp n F o aft A G t0 [(hd & ip & p & I')|(a & w & -> & Ah & E1 & E2)] C Co.
  - right. exists F, hd, ip, p. split; [exact Co|]. apply in_or_app. left.
    destruct o as [a w|z w]; cbn [a_resume as_w out_w] in *; [exact I'|]. destruct (emits_unwind h A aft z w) as (l & -> & _). apply in_or_app. now right.
  - left. exists [], (AFrame F aft false (Some a)), A, a. constructor; auto.
Qed.

Lemma live_hooked : forall h slot adj post n, live h slot adj post n -> hookedb h slot = true.
Proof. intros h slot adj post n (k & I' & _). exact (in_hooked _ _ _ _ _ I'). Qed.
Lemma live_present : forall h slot adj post n, live h slot adj post n -> presentb h slot adj = true.
Proof. intros h slot adj post n (k & I' & _). exact (in_present _ _ _ _ _ I'). Qed.

Lemma live_same : forall h h' slot adj post n, h_vfns h' = h_vfns h -> live h' slot adj post n -> live h slot adj post n.
Proof. intros h h' slot adj post n E (k & I' & D). exists k. split; [|exact D]. apply in_installed. apply in_installed in I'. unfold hook_at in *. now rewrite <- E. Qed.
Lemma refresh_keys : forall h A, map (fun f => (af_id f, af_after f)) (map (refresh h) A) = map (fun f => (af_id f, af_after f)) A.
Proof. intros h A. rewrite map_map. apply map_ext. reflexivity. Qed.

(** A hook that is ahead stays ahead or is run. *)
Lemma waits_step : forall m0 s A e s' F slot this post (vp : bool) n, (forall a, Z.odd (m0 a) = false) -> LInv m0 s A -> allowed (s_h s) A e -> step s e = Ok s' ->
  forall x, astep (s_h s) (s_h s') A (b_pend (s_b s)) e = Some x ->
  live (s_h s') slot (if vp then 0%Z else this) post n ->
  waits A (h_tr (s_h s)) F slot this post vp n ->
  waits (as_fr x) (h_tr (s_h s')) F slot this post vp n \/ was_run (h_tr (s_h s')) F n.
Proof.
  intros m0 s A e s' F slot this post vp n Ev L Al E x Ea Lv (N & f & B & a & [-> Eh Ah Es Et Ch Co]).
  destruct (step_loop m0 s _ e s' Ev L Al E) as (x' & new & Ea' & L' & Sn & Ep & Hn & Hnn & _).
  assert (x' = x) by congruence. subst x'. unfold since in Sn. rewrite Sn.
  pose proof (cinv_wh _ _ _ (li_c _ _ _ L)) as W.
  assert (Ca : chain_to F (f :: B)) by exact Ch.
  destruct (runs e) eqn:Hr.
  2:{ (* API *)
    left. assert (Efr : as_fr x = map (refresh (s_h s')) (N ++ f :: B)) by (destruct e; try discriminate; cbn [astep] in Ea; injection Ea as <-; reflexivity).
    rewrite map_app in Efr. cbn [map] in Efr.
    exists (map (refresh (s_h s')) N), (refresh (s_h s') f), (map (refresh (s_h s')) B), (a_refresh (s_h s') a). constructor; auto.
    - cbn [refresh af_hook]. rewrite Eh. reflexivity.
    - destruct Ah as (Ha & Hs & P). split; [|split].
      + cbn [a_refresh a_alive]. rewrite Ha, Es. apply (live_hooked _ _ _ _ _ Lv).
      + intros ->. cbn [a_refresh a_seen]. rewrite (Hs eq_refl), Es, Et. apply (live_present _ _ _ _ _ Lv).
      + exact P.
    - apply (chain_ext F (f :: B)); [|exact Ch]. symmetry. apply (refresh_keys (s_h s') (f :: B)).
    - apply continues_more. exact Co. }
  assert (Lv0 : live (s_h s) slot (if vp then 0%Z else this) post n) by (eapply live_same; [|exact Lv]; apply (rs_vfns _ _ (step_runs s e s' Hr E))).
  assert (Kept : (exists N', as_fr x = N' ++ f :: B) -> waits (as_fr x) (new ++ h_tr (s_h s)) F slot this post vp n).
  { intros (N' & Efr). exists N', f, B, a. constructor; auto. apply continues_more. exact Co. }
  assert (Hf : is_hook f) by (unfold is_hook; congruence).
  assert (La : is_rec (lastaft APlain N) = false).
  { eapply stack_last; [apply (li_st _ _ _ L)|exact Eh|]. left. apply Ah. }
  destruct N as [|g N].
  2:{ left. apply Kept. eapply astep_below; eauto. discriminate. }
  cbn [app] in *. rewrite (Hn eq_refl).
  destruct Ah as (Ha & Hs & P). assert (Ahd : ahead a post vp n) by (repeat split; auto).
  destruct e as [th vo idx q|th vo idx q|z|m|res val offs vo idx q| | | | | | | | | |]; try discriminate; cbn [astep] in Ea.
  - left. rewrite <- (Hn eq_refl). apply Kept. destruct (is_hookcode _); [|injection Ea as <-; exists [AFrame (h_nxt (s_h s)) APlain false None]; reflexivity].
    assert (Et0 : take_ign (f :: B) = None) by (cbn [take_ign]; rewrite Eh; reflexivity). rewrite Et0 in Ea. injection Ea as <-.
    apply (resume_below _ _ _ APlain []); auto.
  - left. rewrite <- (Hn eq_refl). apply Kept. destruct (is_hookcode _); [|injection Ea as <-; exists [AFrame (h_nxt (s_h s)) AReset true None]; reflexivity].
    injection Ea as <-. apply (resume_below _ _ _ AReset []); auto.
  - rewrite Eh in Ea. destruct (a_run a) as [r|] eqn:Er; injection Ea as <-.
    + apply goes_resume; [|exact Ch|now apply continues_more].
      apply done_goes; auto; [now split|congruence].
    + apply goes_resume; [|exact Ch|now apply continues_more].
      pose proof (li_st _ _ _ L) as St. cbn [stack_ok] in St. rewrite Eh in St. destruct St as [[[_ Po] _] _]. unfold phase_ok in Po.
      destruct (a_phase a); try (destruct Po as [Po _]; congruence).
      destruct post; [|contradiction]. apply begin_post_goes; auto; now split.
  - rewrite Eh in Ea. destruct (a_run a) as [r|] eqn:Er; [|discriminate]. injection Ea as <-. left.
    eexists [], _, B, _. cbn [as_fr app]. constructor; [reflexivity|reflexivity|exact Ahd|exact Es|exact Et| |now apply continues_more].
    apply (chain_ext F (f :: B)); [reflexivity|exact Ch].
  - rewrite Eh in Ea. destruct (a_run a) as [[vp0 n0]|] eqn:Er; [|discriminate]. injection Ea as <-. unfold a_recall.
    set (f1 := AFrame (af_id f) (af_after f) false _).
    assert (Seen : vp = false -> presentb (s_h s) (a_slot a) (a_this a) = true).
    { intros ->. rewrite Es, Et. apply (live_present _ _ _ _ _ Lv0). }
    apply goes_resume.
    + pose proof (li_st _ _ _ L) as St. cbn [stack_ok] in St. rewrite Eh in St. destruct St as [[[_ Po] _] _]. unfold phase_ok in Po.
      destruct (a_phase a).
      * apply pre_goes; auto; [now split|]. intros ->. rewrite Er. exact P.
      * destruct Po as [Po _]. congruence.
      * destruct post; [|contradiction]. apply begin_post_goes; auto; [now split|]. rewrite Er. exact P.
    + right. split; [reflexivity|]. apply (chain_ext F (f :: B)); [reflexivity|exact Ch].
    + eapply co_recall; [apply continues_more; exact Co|]. apply in_or_app. left.
      match goal with |- In _ (w_obs (as_w (a_resume ?h0 ?o ?F0 ?aft ?A0))) => assert (Em : emits (F0 :: map af_id A0) (wemit (OBegin F0 (a_slot a) (a_this a) q (KRecall (af_id f))) (wemit (ORecall (af_id f) n0 res val) (World (b_pend (s_b s)) []))) (as_w (a_resume h0 o F0 aft A0))) end.
      { apply emits_resume. destruct (a_phase a); [apply emits_pre|apply emits_pre|apply emits_begin_post]. }
      destruct Em as (l & -> & _). apply in_or_app. right. left. reflexivity.
Qed.
