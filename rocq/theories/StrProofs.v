From Coq Require Import List Bool Arith Ascii Lia.
From Verif Require Import Base StrModel StrSpec.
Import ListNotations.
Open Scope nat_scope.

Lemma isspace_white c : isspace c = true <-> white c.
Proof.
  destruct c as [[] [] [] [] [] [] [] []]; vm_compute; split; intros H;
    try reflexivity; try discriminate; try tauto;
    repeat (destruct H as [H|H]; [discriminate|]); destruct H.
Qed.

Lemma isspace_false c : isspace c = false <-> ~ white c.
Proof.
  rewrite <- isspace_white. destruct (isspace c); intuition congruence.
Qed.

Lemma NUL_not_white : ~ white NUL.
Proof. rewrite <- isspace_false. reflexivity. Qed.

(** ** C strings in arrays *)
Lemma cstr_some b s : cstr b = Some s <-> exists t, b = s ++ NUL :: t /\ ~ In NUL s.
Proof.
  revert s. induction b as [|c b IH]; intros s; cbn [cstr].
  - split; [discriminate|]. intros [t [H _]]. destruct s; discriminate.
  - destruct (Ascii.eqb_spec c NUL) as [->|Hc].
    + split.
      * intros [= <-]. exists b. split; [reflexivity|]. intros [].
      * intros [t [H Hn]]. destruct s as [|d s]; [reflexivity|].
        cbn in H. inversion H; subst. destruct Hn. left; reflexivity.
    + split.
      * destruct (cstr b) as [s'|] eqn:E; [|discriminate]. intros [= <-].
        destruct (proj1 (IH s') eq_refl) as [t [-> Hn]]. exists t. split; [reflexivity|].
        intros [H|H]; [congruence|tauto].
      * intros [t [H Hn]]. destruct s as [|d s]; cbn in H; inversion H; subst; [congruence|].
        assert (cstr (s ++ NUL :: t) = Some s) as ->; [|reflexivity].
        apply IH. exists t. split; [reflexivity|]. intros Hi; apply Hn; right; exact Hi.
Qed.

Lemma cstr_intro s t : ~ In NUL s -> cstr (s ++ NUL :: t) = Some s.
Proof. intros H. apply cstr_some. eauto. Qed.

Lemma cstr_length b s : cstr b = Some s -> length s + 1 <= length b.
Proof.
  intros H. apply cstr_some in H. destruct H as [t [-> _]]. rewrite app_length. cbn. lia.
Qed.

Lemma store_str_ok b s : ~ In NUL s -> length s + 1 <= length b ->
  exists b', store_str b s = Some b' /\ cstr b' = Some s /\ same_from (length s + 1) b b'.
Proof.
  intros Hn Hl. unfold store_str. rewrite (proj2 (Nat.leb_le _ _) Hl).
  eexists; split; [reflexivity|]. split.
  - apply cstr_intro; exact Hn.
  - unfold same_from. split.
    + rewrite !app_length, skipn_length. cbn. lia.
    + rewrite app_assoc, skipn_app. replace (length (s ++ [NUL])) with (length s + 1)
        by (rewrite app_length; reflexivity).
      rewrite Nat.sub_diag. cbn [skipn]. rewrite (skipn_all2 (s ++ [NUL])); [reflexivity|].
      rewrite app_length; cbn; lia.
Qed.

Lemma poke_app a c d x : poke (a ++ c :: d) (length a) x = Some (a ++ x :: d).
Proof. induction a as [|y a IH]; cbn; [reflexivity|]. rewrite IH. reflexivity. Qed.

Lemma poke_length b i c b' : poke b i c = Some b' -> length b' = length b.
Proof.
  revert i b'. induction b as [|x b IH]; intros [|i] b'; cbn; try discriminate.
  - intros [= <-]. reflexivity.
  - destruct (poke b i c) eqn:E; [|discriminate]. intros [= <-]. cbn. f_equal. eauto.
Qed.

Lemma poke_some b i c : i < length b -> exists b', poke b i c = Some b'.
Proof.
  revert i. induction b as [|x b IH]; intros [|i]; cbn; intros H; try lia; eauto.
  destruct (IH i) as [b' ->]; [lia|]. eauto.
Qed.

(** ** Trimming *)
Lemma drop_space_spec s : trimmed_left s (drop_space s).
Proof.
  induction s as [|c s IH]; cbn.
  - exists []. repeat split; [constructor|]. intros (c&t&H&_); discriminate.
  - destruct (isspace c) eqn:E.
    + destruct IH as (sp&H1&H2&H3). exists (c :: sp). cbn. rewrite H1 at 1. split; [reflexivity|].
      split; [|exact H3]. constructor; [apply isspace_white; exact E|exact H2].
    + exists []. split; [reflexivity|]. split; [constructor|].
      intros (d&t&H&Hw). inversion H; subst. apply isspace_white in Hw. congruence.
Qed.

Lemma trimmed_left_unique s t1 t2 : trimmed_left s t1 -> trimmed_left s t2 -> t1 = t2.
Proof.
  intros (sp1&E1&F1&N1) (sp2&E2&F2&N2). revert sp1 sp2 E1 E2 F1 F2.
  induction s as [|c s IH]; intros sp1 sp2 E1 E2 F1 F2.
  - symmetry in E1, E2. apply app_eq_nil in E1. apply app_eq_nil in E2. destruct E1, E2; congruence.
  - destruct sp1 as [|a sp1], sp2 as [|b sp2]; cbn in E1, E2.
    + congruence.
    + inversion E2; subst. inversion F2; subst. destruct N1. exists b, (sp2 ++ t2). auto.
    + inversion E1; subst. inversion F1; subst. destruct N2. exists a, (sp1 ++ t1). auto.
    + inversion E1; inversion E2; subst. inversion F1; inversion F2; subst. eauto.
Qed.

Lemma trimmed_right_rev s t : trimmed_left (rev s) (rev t) <-> trimmed_right s t.
Proof.
  unfold trimmed_left, trimmed_right. split.
  - intros (sp&E&F&N). exists (rev sp). apply (f_equal (@rev ascii)) in E.
    rewrite rev_app_distr, !rev_involutive in E. split; [exact E|]. split; [apply Forall_rev; exact F|].
    intros (c&u&H&Hw). apply N. exists c, (rev u). rewrite H, rev_app_distr. auto.
  - intros (sp&E&F&N). exists (rev sp). rewrite E, rev_app_distr. split; [reflexivity|].
    split; [apply Forall_rev; exact F|]. intros (c&u&H&Hw). apply N. exists c, (rev u).
    apply (f_equal (@rev ascii)) in H. rewrite rev_involutive in H. cbn in H. auto.
Qed.

Lemma trimmed_right_unique s t1 t2 : trimmed_right s t1 -> trimmed_right s t2 -> t1 = t2.
Proof.
  rewrite <- !trimmed_right_rev. intros H1 H2.
  pose proof (trimmed_left_unique _ _ _ H1 H2) as H. apply (f_equal (@rev ascii)) in H.
  rewrite !rev_involutive in H. exact H.
Qed.

Lemma trim_right_fun s : trimmed_right s (rev (drop_space (rev s))).
Proof. apply trimmed_right_rev. rewrite rev_involutive. apply drop_space_spec. Qed.

Lemma trimmed_left_sub s t : trimmed_left s t -> (forall c, In c t -> In c s) /\ length t <= length s.
Proof.
  intros (sp&->&_). split; [intros; apply in_or_app; auto|]. rewrite app_length; lia.
Qed.
Lemma trimmed_right_sub s t : trimmed_right s t -> (forall c, In c t -> In c s) /\ length t <= length s.
Proof.
  intros (sp&->&_). split; [intros; apply in_or_app; auto|]. rewrite app_length; lia.
Qed.

Lemma mm_TrimLeft_spec b s : cstr b = Some s ->
  exists b' t, mm_TrimLeft b = Some b' /\ cstr b' = Some t /\ trimmed_left s t /\ same_from (length s + 1) b b'.
Proof.
  intros H. unfold mm_TrimLeft. rewrite H.
  pose proof (drop_space_spec s) as Hd. pose proof (trimmed_left_sub _ _ Hd) as [Hi Hl].
  destruct (Nat.eqb_spec (length (drop_space s)) (length s)) as [E|E].
  - exists b, s. repeat split; auto.
    destruct Hd as (sp&E1&F&N). exists []. split; [reflexivity|]. split; [constructor|].
    assert (sp = []) as ->. { apply (f_equal (@length _)) in E1. rewrite app_length in E1.
      destruct sp; [reflexivity|]. cbn in E1. lia. }
    cbn in E1. rewrite E1. exact N.
  - pose proof (cstr_length _ _ H). apply cstr_some in H. destruct H as (t&->&Hn).
    destruct (store_str_ok (s ++ NUL :: t) (drop_space s)) as (b'&H1&H2&H3); [auto|lia|].
    exists b', (drop_space s). repeat split; auto.
    + apply H3.
    + destruct H3 as [_ H3]. assert (length (drop_space s) + 1 <= length s + 1) as Hx by lia.
      apply (f_equal (skipn (length s - length (drop_space s)))) in H3.
      rewrite !skipn_skipn in H3.
      replace (length s - length (drop_space s) + (length (drop_space s) + 1)) with (length s + 1) in H3 by lia.
      exact H3.
Qed.

Lemma UTIL_TrimLeft_spec b s : cstr b = Some s ->
  exists b' t, UTIL_TrimLeft b = Some b' /\ cstr b' = Some t /\ trimmed_left s t /\ length b' = length b.
Proof.
  intros H. unfold UTIL_TrimLeft. rewrite H. pose proof (cstr_length _ _ H).
  pose proof (drop_space_spec s) as Hd. pose proof (trimmed_left_sub _ _ Hd) as [Hi Hl].
  apply cstr_some in H. destruct H as (t&->&Hn).
  destruct (store_str_ok (s ++ NUL :: t) (drop_space s)) as (b'&H1&H2&H3); [auto|lia|].
  exists b', (drop_space s). repeat split; auto. symmetry; apply H3.
Qed.

Lemma UTIL_TrimRight_spec b s : cstr b = Some s ->
  exists b' t, UTIL_TrimRight b = Some b' /\ cstr b' = Some t /\ trimmed_right s t /\ length b' = length b.
Proof.
  intros H. unfold UTIL_TrimRight. rewrite H. pose proof (cstr_length _ _ H).
  pose proof (trim_right_fun s) as Hd. pose proof (trimmed_right_sub _ _ Hd) as [Hi Hl].
  apply cstr_some in H. destruct H as (t&->&Hn).
  destruct (store_str_ok (s ++ NUL :: t) (rev (drop_space (rev s)))) as (b'&H1&H2&H3); [auto|lia|].
  exists b', (rev (drop_space (rev s))). repeat split; auto. symmetry; apply H3.
Qed.

Lemma trim_right_loop_spec s : forall rest, ~ In NUL s ->
  exists b' t, trim_right_loop (s ++ NUL :: rest) (length s) = Some b' /\ cstr b' = Some t /\
               trimmed_right s t /\ same_from (length s + 1) (s ++ NUL :: rest) b'.
Proof.
  induction s as [|c s IH] using rev_ind; intros rest Hn.
  - cbn. exists (NUL :: rest), []. repeat split; auto.
    exists []. repeat split; [constructor|]. intros (c&t&H&_). destruct t; discriminate.
  - rewrite app_length, Nat.add_1_r, <- app_assoc. cbn [trim_right_loop app].
    rewrite nth_error_split_at. destruct (isspace c) eqn:E.
    + rewrite poke_app.
      destruct (IH (NUL :: rest)) as (b'&t&H1&H2&H3&H4).
      { intros Hi; apply Hn; apply in_or_app; auto. }
      exists b', t. split; [exact H1|]. split; [exact H2|]. split.
      * destruct H3 as (sp&->&F&N). exists (sp ++ [c]). rewrite app_assoc. split; [reflexivity|].
        split; [|exact N]. apply Forall_app. split; [exact F|]. constructor; [apply isspace_white; exact E|constructor].
      * destruct H4 as [H4 H5]. unfold same_from. rewrite !app_length in *. cbn [length app] in *. split; [lia|].
        apply (f_equal (skipn 1)) in H5. rewrite !skipn_skipn in H5.
        replace (1 + (length s + 1)) with (length s + 1 + 1) in H5 by lia.
        match goal with |- context [skipn ?k b'] => replace k with (length s + 1 + 1) by lia end.
        rewrite <- H5. rewrite !skipn_app. rewrite !(skipn_all2 s) by lia.
        replace (length s + 1 + 1 - length s) with 2 by lia. reflexivity.
    + eexists _, (s ++ [c]). split; [reflexivity|]. split; [|split].
      * change (s ++ c :: NUL :: rest) with (s ++ [c] ++ NUL :: rest). rewrite app_assoc.
        apply cstr_intro. exact Hn.
      * exists []. rewrite app_nil_r. split; [reflexivity|]. split; [constructor|].
        intros (d&t&H&Hw). apply app_inj_tail in H. destruct H as [_ <-].
        apply isspace_white in Hw. congruence.
      * split; reflexivity.
Qed.

Lemma mm_TrimRight_spec b s : cstr b = Some s ->
  exists b' t, mm_TrimRight b = Some b' /\ cstr b' = Some t /\ trimmed_right s t /\ same_from (length s + 1) b b'.
Proof.
  intros H. unfold mm_TrimRight. rewrite H. apply cstr_some in H. destruct H as (t&->&Hn).
  apply trim_right_loop_spec. exact Hn.
Qed.

(** ** Comments *)
Definition no_slashes (s : str) : Prop := forall a b, s <> a ++ slashes ++ b.

(** invariant of the loop: [p] is the processed text, [num_sc] = 1 iff it
    ends with a slash *)
Lemma trim_comments_loop_spec rest : forall todo p n,
  ~ In NUL (p ++ todo) ->
  no_slashes p ->
  ((n = 1 /\ exists q, p = q ++ ["/"%char]) \/ (n = 0 /\ forall q, p <> q ++ ["/"%char])) ->
  exists b' t, trim_comments_loop (p ++ todo ++ NUL :: rest) (length p) (length todo) n = Some b'
            /\ cstr b' = Some t /\ uncommented (p ++ todo) t /\ length b' = length (p ++ todo ++ NUL :: rest).
Proof.
  induction todo as [|c todo IH]; intros p n Hn Hs Hinv.
  - cbn [length trim_comments_loop app]. eexists _, p. split; [reflexivity|].
    rewrite app_nil_r in *. split; [apply cstr_intro; exact Hn|]. split; [|reflexivity].
    left. split; [reflexivity|exact Hs].
  - cbn [length trim_comments_loop]. cbn [app].
    rewrite nth_error_split_at. destruct (Ascii.eqb_spec c "/") as [->|Hc].
    + destruct Hinv as [[-> [q ->]]|[-> Hq]].
      * (* second slash *)
        cbn [Nat.leb]. rewrite app_length, Nat.add_1_r.
        replace ((q ++ ["/"%char]) ++ "/"%char :: todo ++ NUL :: rest)
          with (q ++ "/"%char :: ("/"%char :: todo ++ NUL :: rest)) by (rewrite <- app_assoc; reflexivity).
        rewrite poke_app. eexists _, q. split; [reflexivity|]. split; [|split].
        -- apply cstr_intro. intros Hi. apply Hn. rewrite <- app_assoc. apply in_or_app; auto.
        -- right. exists todo. split; [rewrite <- app_assoc; reflexivity|].
           intros a b0 Hab. destruct (le_lt_dec (length q) (length a)) as [|Hlt]; [assumption|exfalso].
           (* the occurrence would lie inside q ++ ["/"] *)
           apply (Hs a (skipn (length a + 2) (q ++ ["/"%char]))).
           assert (firstn (length a + 2) (q ++ ["/"%char]) = a ++ slashes) as Hf.
           { apply (f_equal (firstn (length a + 2))) in Hab.
             rewrite (firstn_app _ (q ++ ["/"%char])) in Hab.
             replace (length a + 2 - length (q ++ ["/"%char])) with 0 in Hab
               by (rewrite app_length; cbn; lia).
             cbn [firstn] in Hab. rewrite app_nil_r in Hab. rewrite Hab.
             rewrite app_assoc, firstn_app.
             rewrite (firstn_all2 (a ++ slashes)) by (rewrite app_length; cbn; lia).
             replace (length a + 2 - length (a ++ slashes)) with 0 by (rewrite app_length; cbn; lia).
             cbn. apply app_nil_r. }
           rewrite <- (firstn_skipn (length a + 2) (q ++ ["/"%char])) at 1.
           rewrite Hf, <- app_assoc. reflexivity.
        -- rewrite !app_length. cbn. lia.
      * (* first slash *)
        replace (2 <=? 1) with false by reflexivity.
        destruct (IH (p ++ ["/"%char]) 1) as (b'&t&H1&H2&H3&H4).
        -- rewrite <- app_assoc. exact Hn.
        -- intros a b Hab. destruct (exists_last (l := slashes ++ b)) as (b1&x&Hb); [discriminate|].
           rewrite Hb, app_assoc in Hab. apply app_inj_tail in Hab. destruct Hab as [Hp <-].
           destruct b as [|b2 b].
           ++ cbn in Hb. assert (slashes = ["/"%char] ++ ["/"%char]) as E by reflexivity.
              unfold slashes in Hb. change ["/"%char; "/"%char] with (["/"%char] ++ ["/"%char]) in Hb.
              apply app_inj_tail in Hb. destruct Hb as [<- _]. exact (Hq _ Hp).
           ++ destruct (exists_last (l := b2 :: b)) as (b3&y&Hb3); [discriminate|].
              rewrite Hb3, app_assoc in Hb. apply app_inj_tail in Hb. destruct Hb as [<- _].
              rewrite Hp in Hs. exact (Hs a b3 eq_refl).
        -- left. split; [reflexivity|]. exists p. reflexivity.
        -- rewrite app_length, Nat.add_1_r, <- !app_assoc in H1. rewrite <- !app_assoc in H3, H4.
           cbn [app] in H1, H3, H4. exists b', t. auto.
    + destruct (IH (p ++ [c]) 0) as (b'&t&H1&H2&H3&H4).
      * rewrite <- app_assoc. exact Hn.
      * intros a b Hab. destruct (exists_last (l := slashes ++ b)) as (b1&x&Hb); [discriminate|].
        rewrite Hb, app_assoc in Hab. apply app_inj_tail in Hab. destruct Hab as [Hp <-].
        destruct b as [|b2 b].
        -- unfold slashes in Hb. cbn in Hb. change ["/"%char; "/"%char] with (["/"%char] ++ ["/"%char]) in Hb.
           apply app_inj_tail in Hb. destruct Hb as [_ Hb]. congruence.
        -- destruct (exists_last (l := b2 :: b)) as (b3&y&Hb3); [discriminate|].
           rewrite Hb3, app_assoc in Hb. apply app_inj_tail in Hb. destruct Hb as [<- _].
           rewrite Hp in Hs. exact (Hs a b3 eq_refl).
      * right. split; [reflexivity|]. intros q Hq. apply app_inj_tail in Hq. destruct Hq; congruence.
      * rewrite app_length, Nat.add_1_r, <- !app_assoc in H1. rewrite <- !app_assoc in H3, H4.
           cbn [app] in H1, H3, H4. exists b', t. auto.
Qed.

Lemma mm_TrimComments_spec b s : cstr b = Some s ->
  exists b' t, mm_TrimComments b = Some b' /\ cstr b' = Some t /\ uncommented s t /\ length b' = length b.
Proof.
  intros H. unfold mm_TrimComments. rewrite H. apply cstr_some in H. destruct H as (t&->&Hn).
  apply (trim_comments_loop_spec t s [] 0).
  - exact Hn.
  - intros a b Hab. destruct a; discriminate.
  - right. split; [reflexivity|]. intros q Hq. destruct q; discriminate.
Qed.

Lemma uncommented_unique s t1 t2 : uncommented s t1 -> uncommented s t2 -> t1 = t2.
Proof.
  intros [[-> H1]|(r1&E1&M1)] [[-> H2]|(r2&E2&M2)].
  - reflexivity.
  - destruct (H1 _ _ E2).
  - destruct (H2 _ _ E1).
  - specialize (M1 _ _ E2). specialize (M2 _ _ E1).
    assert (length t1 = length t2) as Hl by lia. clear - E1 E2 Hl. subst s.
    revert t2 E2 Hl. induction t1 as [|x t1 IH]; intros [|y t2] E2 Hl; try discriminate; [reflexivity|].
    cbn in E2. inversion E2; subst. f_equal. apply IH; [assumption|cbn in Hl; lia].
Qed.

Lemma uncommented_idem s t : uncommented s t -> uncommented t t.
Proof.
  intros [[-> H]|(r&E&M)].
  - left; auto.
  - left. split; [reflexivity|]. intros a b Hab. subst t.
    specialize (M a (b ++ slashes ++ r)).
    assert (length (a ++ slashes ++ b) <= length a) as Hx.
    { apply M. rewrite E, <- !app_assoc. reflexivity. }
    rewrite !app_length in Hx. cbn in Hx. lia.
Qed.

(** ** KeySplit *)
Lemma skip_space_drop s : skip_space s = drop_space s.
Proof. induction s as [|c s IH]; cbn; [reflexivity|]. destruct (isspace c); cbn; auto. Qed.

Lemma word_and_rest_spec s w r : word_and_rest s = (w, r) ->
  s = w ++ r /\ (forall c, In c w -> ~ white c) /\ (r = [] \/ starts_white r).
Proof.
  revert w r. induction s as [|c s IH]; intros w r; cbn [word_and_rest].
  - intros [= <- <-]. split; [reflexivity|]. split; [intros c []|auto].
  - destruct (isspace c) eqn:E.
    + intros [= <- <-]. split; [reflexivity|]. split; [intros d []|]. right. exists c, s.
      split; [reflexivity|]. apply isspace_white; exact E.
    + destruct (word_and_rest s) as [w' r'] eqn:E2. intros [= <- <-].
      destruct (IH w' r' eq_refl) as (->&H2&H3). split; [reflexivity|]. split; [|exact H3].
      intros d [<-|Hd]; [apply isspace_false; exact E|auto].
Qed.

Lemma copy_loop_spec len s : forall pre b,
  ~ In NUL (pre ++ s) -> length pre <= len -> len + 1 <= length pre + length b ->
  exists b', copy_loop (pre ++ b) (length pre) len s = Some (pre ++ b') /\
             cstr (pre ++ b') = Some (firstn len (pre ++ s)) /\ length b' = length b /\
             skipn (len + 1) (pre ++ b') = skipn (len + 1) (pre ++ b).
Proof.
  induction s as [|x s IH]; intros pre b Hn Hp Hb.
  - destruct b as [|y b]; [cbn in Hb; lia|]. cbn [copy_loop]. rewrite poke_app.
    rewrite app_nil_r in *. exists (NUL :: b). split; [reflexivity|]. rewrite firstn_all2 by lia.
    split; [apply cstr_intro; exact Hn|]. split; [reflexivity|].
    rewrite !skipn_app, !skipn_all2 with (l := pre) by lia.
    destruct (len + 1 - length pre) eqn:E; [lia|]. reflexivity.
  - cbn [copy_loop]. destruct (Nat.leb_spec len (length pre)) as [Hl|Hl].
    + assert (length pre = len) as Hpl by lia.
      destruct b as [|y b]; [cbn in Hb; lia|]. rewrite poke_app.
      exists (NUL :: b). split; [reflexivity|].
      rewrite firstn_app, firstn_all2 by lia. rewrite Hpl, Nat.sub_diag. cbn [firstn].
      rewrite app_nil_r. split; [|split; [reflexivity|]].
      * apply cstr_intro. intros Hi; apply Hn; apply in_or_app; auto.
      * rewrite !skipn_app, !skipn_all2 with (l := pre) by lia.
        destruct (len + 1 - length pre) eqn:E; [lia|]. reflexivity.
    + destruct b as [|y b]; [cbn in Hb; lia|]. rewrite poke_app.
      destruct (IH (pre ++ [x]) b) as (b'&H1&H2&H3&H4).
      * rewrite <- app_assoc. exact Hn.
      * rewrite app_length; cbn; lia.
      * rewrite app_length; cbn; cbn in Hb; lia.
      * rewrite app_length, Nat.add_1_r, <- !app_assoc in *. cbn [app] in *.
        exists (x :: b'). split; [exact H1|]. split; [exact H2|]. split; [cbn; lia|].
        rewrite H4. rewrite !skipn_app, !skipn_all2 with (l := pre) by lia.
        destruct (S len - length pre) eqn:E; [lia|]. reflexivity.
Qed.

Lemma mm_KeySplit_spec s b1 l1 b2 l2 :
  ~ In NUL s -> l1 + 1 <= length b1 -> l2 + 1 <= length b2 ->
  exists b1' b2' key value,
    mm_KeySplit s b1 l1 b2 l2 = Some (b1', b2') /\
    key_value s key value /\
    cstr b1' = Some (firstn l1 key) /\ cstr b2' = Some (firstn l2 value) /\
    same_from (l1 + 1) b1 b1' /\ same_from (l2 + 1) b2 b2'.
Proof.
  intros Hn H1 H2. unfold mm_KeySplit.
  destruct (word_and_rest (skip_space s)) as [w r] eqn:E.
  apply word_and_rest_spec in E. rewrite skip_space_drop in E. destruct E as (E&Hw&Hr).
  pose proof (drop_space_spec s) as (sp1&Es&F1&N1). rewrite E in *.
  pose proof (drop_space_spec r) as (sp2&Er&F2&N2).
  rewrite skip_space_drop.
  assert (~ In NUL w /\ ~ In NUL (drop_space r)) as [Hnw Hnr].
  { split; intros Hi; apply Hn; rewrite Es; apply in_or_app; right; apply in_or_app; [auto|].
    right. rewrite Er. apply in_or_app; auto. }
  destruct (copy_loop_spec l1 w [] b1) as (b1'&C1&C2&C3&C4); [exact Hnw|cbn; lia|cbn; lia|].
  destruct (copy_loop_spec l2 (drop_space r) [] b2) as (b2'&D1&D2&D3&D4); [exact Hnr|cbn; lia|cbn; lia|].
  cbn [app length] in *. rewrite C1, D1. exists b1', b2', w, (drop_space r).
  split; [reflexivity|]. split; [|unfold same_from; auto 10].
  exists sp1, sp2. split; [rewrite Es at 1; rewrite Er at 1; reflexivity|].
  repeat split; auto.
  - subst w. cbn in *. destruct Hr as [->|Hr]; [|tauto].
    destruct sp2; [reflexivity|discriminate].
  - subst w. cbn in *. destruct Hr as [->|Hr]; [|tauto]. reflexivity.
  - intros ->. cbn in Er. destruct Hr as [->|Hr]; [reflexivity|]. rewrite Er in Hr. tauto.
Qed.

(** ** Path comparison *)
Lemma pathcmp_char a b :
  ((is_high a && negb (Ascii.eqb a b)) || (negb (isalpha a) && negb (Ascii.eqb a b))) = true ->
  Ascii.eqb a b = false.
Proof.
  destruct (Ascii.eqb a b); [|reflexivity]. cbn [negb]. rewrite !andb_false_r. discriminate.
Qed.

Lemma collapse_cons_other c s : c <> "/"%char -> collapse (c :: s) = c :: collapse s.
Proof.
  intros H. cbn. destruct s as [|d s]; [reflexivity|].
  destruct (Ascii.eqb_spec c "/"); [congruence|reflexivity].
Qed.

Lemma collapse_sep s : collapse ("/"%char :: s) = "/"%char :: collapse (skip_sep s).
Proof.
  induction s as [|d s IH]; [reflexivity|].
  change (collapse ("/"%char :: d :: s)) with
    (if Ascii.eqb d "/" then collapse (d :: s) else "/"%char :: collapse (d :: s)).
  cbn [skip_sep]. unfold SEP. destruct (Ascii.eqb_spec d "/") as [->|Hd]; [exact IH|reflexivity].
Qed.

Lemma skip_sep_length s : length (skip_sep s) <= length s.
Proof. induction s as [|c s IH]; cbn; [lia|]. destruct (Ascii.eqb c SEP); cbn; lia. Qed.

Lemma skip_sep_nosep s t : skip_sep s <> "/"%char :: t.
Proof.
  induction s as [|c s IH]; cbn; [discriminate|]. unfold SEP.
  destruct (Ascii.eqb_spec c "/"); [exact IH|]. intros [= H _]; congruence.
Qed.

Lemma collapse_nil s : collapse s = [] -> s = [].
Proof.
  induction s as [|c s IH]; [reflexivity|]. cbn. destruct s as [|d s]; [discriminate|].
  destruct (_ && _); [|discriminate]. intros H. apply IH in H. discriminate.
Qed.

Lemma pathcmp_loop_spec fuel : forall p1 p2, length p1 < fuel ->
  exists r, pathcmp_loop fuel p1 p2 = Some r /\ (r = true <-> collapse p1 = collapse p2).
Proof.
  induction fuel as [|fuel IH]; intros p1 p2 Hf; [lia|].
  cbn [pathcmp_loop]. destruct p1 as [|a p1], p2 as [|b p2].
  - exists true. split; [reflexivity|]. tauto.
  - exists false. split; [reflexivity|]. split; [discriminate|]. intros H. symmetry in H.
    apply collapse_nil in H. discriminate.
  - exists false. split; [reflexivity|]. split; [discriminate|]. intros H.
    apply collapse_nil in H. discriminate.
  - unfold SEP. destruct (Ascii.eqb_spec a "/") as [->|Ha].
    + destruct (Ascii.eqb_spec b "/") as [->|Hb]; cbn [negb].
      * destruct (IH (skip_sep p1) (skip_sep p2)) as (r&H1&H2).
        { cbn in Hf. pose proof (skip_sep_length p1). lia. }
        exists r. split; [exact H1|]. rewrite H2, !collapse_sep. split; [congruence|].
        intros H; inversion H; auto.
      * exists false. split; [reflexivity|]. split; [discriminate|].
        rewrite collapse_sep, collapse_cons_other by assumption. intros H; inversion H; congruence.
    + destruct (_ || _) eqn:E.
      * exists false. split; [reflexivity|]. split; [discriminate|].
        apply pathcmp_char in E. rewrite (collapse_cons_other a) by assumption.
        destruct (Ascii.eqb_spec b "/") as [->|Hb].
        -- rewrite collapse_sep. intros H; inversion H; congruence.
        -- rewrite collapse_cons_other by assumption. intros H; inversion H; subst.
           rewrite Ascii.eqb_refl in E. discriminate.
      * destruct (Ascii.eqb_spec a b) as [<-|Hab]; cbn [negb].
        -- destruct (IH p1 p2) as (r&H1&H2); [cbn in Hf; lia|]. exists r. split; [exact H1|].
           rewrite H2, !collapse_cons_other by assumption. split; [congruence|].
           intros H; inversion H; auto.
        -- exists false. split; [reflexivity|]. split; [discriminate|].
           rewrite (collapse_cons_other a) by assumption.
           destruct (Ascii.eqb_spec b "/") as [->|Hb].
           ++ rewrite collapse_sep. intros H; inversion H; congruence.
           ++ rewrite collapse_cons_other by assumption. intros H; inversion H; congruence.
Qed.

Lemma UTIL_PathCmp_spec p1 p2 :
  exists r, UTIL_PathCmp p1 p2 = Some r /\ (r = true <-> collapse p1 = collapse p2).
Proof. apply pathcmp_loop_spec. lia. Qed.

(** ** Formatting *)
Lemma FormatArgs_spec b n text : 0 < n -> n <= length b -> ~ In NUL text ->
  exists b' k, FormatArgs b n (Formatted text) = Some (b', k) /\
     cstr b' = Some (firstn (n - 1) text) /\ k = length (firstn (n - 1) text) /\ k < n /\
     same_from n b b'.
Proof.
  intros Hn Hb Ht. destruct n as [|last]; [lia|]. cbn [FormatArgs].
  replace (S last - 1) with last by lia.
  destruct (store_str_ok b (firstn last text)) as (b1&H1&H2&H3).
  { intros Hi. apply in_firstn in Hi. tauto. }
  { rewrite firstn_length. lia. }
  rewrite H1. destruct (Nat.leb_spec (S last) (length text)) as [Hl|Hl].
  - assert (length (firstn last text) = last) as Hfl by (rewrite firstn_length; lia).
    pose proof H2 as H2'. apply cstr_some in H2'. destruct H2' as (t&E&_).
    assert (poke b1 last NUL = Some b1) as Hpk.
    { rewrite E. pose proof (poke_app (firstn last text) NUL t NUL) as Hp. rewrite Hfl in Hp. exact Hp. }
    rewrite Hpk.
    exists b1, last. split; [reflexivity|].
    split; [exact H2|]. split; [lia|]. split; [lia|]. rewrite Hfl in H3.
    replace (S last) with (last + 1) by lia. exact H3.
  - rewrite firstn_all2 in * by lia. exists b1, (length text). split; [reflexivity|].
    split; [exact H2|]. split; [reflexivity|]. split; [lia|].
    destruct H3 as [H3 H4]. split; [exact H3|].
    apply (f_equal (skipn (last - length text))) in H4. rewrite !skipn_skipn in H4.
    replace (last - length text + (length text + 1)) with (S last) in H4 by lia. exact H4.
Qed.

Lemma FormatArgs_error b n g : 0 < n -> n <= length b -> length g = length b ->
  exists b' k s, FormatArgs b n (FormatError g) = Some (b', k) /\ cstr b' = Some s /\ length s < n /\
                 length b' = length b.
Proof.
  intros Hn Hb Hg. destruct n as [|last]; [lia|]. cbn [FormatArgs]. rewrite Hg, Nat.eqb_refl.
  destruct (poke_some g last NUL) as [b' Hp]; [lia|]. rewrite Hp.
  assert (exists s, cstr b' = Some s /\ length s < S last) as (s&Hs&Hl).
  { clear - Hp. revert last b' Hp. induction g as [|x g IH]; intros [|last] b'; cbn; try discriminate.
    - intros [= <-]. exists []. cbn. split; [reflexivity|lia].
    - destruct (poke g last NUL) as [r|] eqn:E; [|discriminate]. intros [= <-].
      destruct (IH _ _ E) as (s&Hs&Hl). cbn. destruct (Ascii.eqb x NUL).
      + exists []. cbn. split; [reflexivity|lia].
      + rewrite Hs. exists (x :: s). cbn. split; [reflexivity|lia]. }
  exists b', last, s. repeat split; auto. rewrite (poke_length _ _ _ _ Hp). exact Hg.
Qed.

Lemma fix_seps_app s t : fix_seps (s ++ t) (length s) =
  map (fun c => if Ascii.eqb c ALT_SEP then SEP else c) s ++ t.
Proof. induction s as [|c s IH]; cbn; [destruct t; reflexivity|]. rewrite IH. reflexivity. Qed.

Lemma fix_seps_length b n : length (fix_seps b n) = length b.
Proof. revert n. induction b as [|c b IH]; intros [|n]; cbn; auto. Qed.

Lemma mm_PathFormat_spec b n text : 0 < n -> n <= length b -> ~ In NUL text ->
  exists b' k s, mm_PathFormat b n (Formatted text) = Some (b', k) /\
     cstr b' = Some s /\ k = length s /\ k < n /\ ~ In "\"%char s /\
     s = map (fun c => if Ascii.eqb c "\" then "/"%char else c) (firstn (n - 1) text) /\
     same_from n b b'.
Proof.
  intros Hn Hb Ht. destruct (FormatArgs_spec b n text Hn Hb Ht) as (b1&k&H1&H2&H3&H4&H5).
  unfold mm_PathFormat. rewrite H1. pose proof (cstr_length _ _ H2).
  destruct (Nat.leb_spec k (length b1)); [|lia].
  set (s := firstn (n - 1) text) in *. pose proof H2 as H2'.
  apply cstr_some in H2'. destruct H2' as (t&E&Hs).
  eexists _, k, _. split; [reflexivity|]. rewrite E, H3, fix_seps_app. split.
  { apply cstr_intro. rewrite in_map_iff. intros (c&Hc&Hi).
    destruct (Ascii.eqb_spec c ALT_SEP); [discriminate Hc|]. subst c. tauto. }
  rewrite map_length. split; [reflexivity|]. split; [lia|]. split.
  { rewrite in_map_iff. intros (c&Hc&Hi).
    destruct (Ascii.eqb_spec c ALT_SEP) as [|Hne]; [discriminate Hc|]. apply Hne. exact Hc. }
  split; [reflexivity|]. destruct H5 as [H5 H6]. rewrite E in *. split.
  - rewrite H5, !app_length, map_length. reflexivity.
  - rewrite H6, !skipn_app, map_length. f_equal.
    rewrite !skipn_all2; rewrite ?map_length; try lia. reflexivity.
Qed.

(** ** Command line *)
Lemma str_eqb_spec a b : str_eqb a b = true <-> a = b.
Proof. unfold str_eqb. destruct (list_eq_dec ascii_dec a b); intuition congruence. Qed.

Lemma find_arg_false pre name rest b n : ~ In name pre ->
  find_arg (pre ++ rest) name false b n =
  match rest with
  | [] => Some (false, b)
  | a :: rest' => find_arg rest' name (str_eqb a name) b n
  end.
Proof.
  induction pre as [|p pre IH]; intros Hn.
  - destruct rest; reflexivity.
  - cbn [app find_arg]. assert (str_eqb p name = false) as ->.
    { destruct (str_eqb p name) eqn:E; [|reflexivity]. apply str_eqb_spec in E. destruct Hn. left; congruence. }
    apply IH. intros H; apply Hn; right; exact H.
Qed.

Lemma poke0 x b : poke (x :: b) 0 NUL = Some (NUL :: b).
Proof. reflexivity. Qed.

Lemma strncpy_ok b v n : 0 < n -> n <= length b -> ~ In NUL v ->
  exists b1 b2, strncpy b v n = Some b1 /\ poke b1 (n - 1) NUL = Some b2 /\
                cstr b2 = Some (firstn (n - 1) v) /\ same_from n b b2.
Proof.
  intros Hn Hb Hv. unfold strncpy. rewrite (proj2 (Nat.leb_le _ _) Hb).
  destruct (le_lt_dec n (length v)) as [Hl|Hl].
  - replace (n - length v) with 0 by lia. cbn [repeat app].
    assert (firstn n v = firstn (n - 1) v ++ [nth (n - 1) v NUL]) as ->.
    { clear - Hn Hl. revert v Hl. induction n as [|n IH]; intros v Hl; [lia|].
      replace (S n - 1) with n by lia. destruct v as [|x v]; [cbn in Hl; lia|].
      destruct n as [|n].
      - reflexivity.
      - cbn [firstn nth app]. f_equal. specialize (IH ltac:(lia) v ltac:(cbn in Hl; lia)).
        replace (S n - 1) with n in IH by lia. exact IH. }
    assert (length (firstn (n - 1) v) = n - 1) as Hf by (rewrite firstn_length; lia).
    rewrite <- app_assoc. cbn [app].
    pose proof (poke_app (firstn (n - 1) v) (nth (n - 1) v NUL) (skipn n b) NUL) as Hpk. rewrite Hf in Hpk.
    eexists _, _. split; [reflexivity|]. split; [exact Hpk|]. split.
    + apply cstr_intro. intros Hi; apply in_firstn in Hi; tauto.
    + split.
      * rewrite app_length. cbn. rewrite Hf, skipn_length. lia.
      * rewrite skipn_app, Hf, (skipn_all2 (firstn (n - 1) v)) by lia.
        replace (n - (n - 1)) with 1 by lia. reflexivity.
  - rewrite !firstn_all2 by lia.
    assert (exists k, n - length v = S k) as [k Hk] by (exists (n - length v - 1); lia).
    rewrite Hk. cbn [repeat].
    assert (poke (v ++ (NUL :: repeat NUL k) ++ skipn n b) (n - 1) NUL
            = Some (v ++ (NUL :: repeat NUL k) ++ skipn n b)) as Hp.
    { assert (NUL :: repeat NUL k = repeat NUL k ++ [NUL]) as E.
      { clear. induction k; cbn; [reflexivity|]. f_equal. exact IHk. }
      rewrite E, <- app_assoc. rewrite app_assoc. cbn [app].
      replace (n - 1) with (length (v ++ repeat NUL k)) by (rewrite app_length, repeat_length; lia).
      rewrite poke_app. reflexivity. }
    eexists _, _. split; [reflexivity|]. split; [exact Hp|]. split.
    + cbn. apply cstr_intro. exact Hv.
    + split.
      * rewrite !app_length. cbn. rewrite repeat_length, skipn_length. lia.
      * rewrite app_assoc, skipn_app. rewrite (skipn_all2 (v ++ NUL :: repeat NUL k)) by (rewrite app_length; cbn; rewrite repeat_length; lia).
        replace (n - length (v ++ NUL :: repeat NUL k)) with 0
          by (rewrite app_length; cbn; rewrite repeat_length; lia). reflexivity.
Qed.

Lemma mm_GetCommandArgument_spec args name b n r :
  0 < n -> n <= length b -> (forall a, In a args -> ~ In NUL a) ->
  arg_value args name r ->
  exists b', mm_GetCommandArgument (Some args) name (Some b) n
             = Some (match r with None => false | Some _ => true end, Some b') /\
             cstr b' = Some (match r with Some (Some v) => firstn (n - 1) v | _ => [] end) /\
             same_from n b b'.
Proof.
  intros Hn Hb Ha Hr. destruct b as [|x b]; [cbn in Hb; lia|].
  unfold mm_GetCommandArgument. rewrite poke0.
  assert (cstr (NUL :: b) = Some []) as H0 by reflexivity.
  assert (same_from n (x :: b) (NUL :: b)) as Hs.
  { split; [reflexivity|]. destruct n; [lia|reflexivity]. }
  destruct Hr as [Hin|pre Hargs Hin|pre v post Hargs Hin|pre v post Hargs Hin Hd].
  - replace args with (args ++ []) by apply app_nil_r. rewrite find_arg_false by exact Hin. eauto.
  - rewrite Hargs, find_arg_false by exact Hin. cbn [find_arg]. rewrite (proj2 (str_eqb_spec name name) eq_refl). eauto.
  - rewrite Hargs, find_arg_false by exact Hin. cbn [find_arg]. rewrite (proj2 (str_eqb_spec name name) eq_refl). eauto.
  - rewrite Hargs, find_arg_false by exact Hin. cbn [find_arg]. rewrite (proj2 (str_eqb_spec name name) eq_refl).
    assert (~ In NUL v) as Hv.
    { apply Ha. rewrite Hargs. apply in_or_app. right. right. left. reflexivity. }
    destruct (strncpy_ok (NUL :: b) v n) as (b1&b2&H1&H2&H3&H4); [lia|exact Hb|exact Hv|].
    destruct n as [|last]; [lia|]. replace (S last - 1) with last in * by lia.
    assert (forall {T} (x y : T), (match v with "-"%char :: _ => x | _ => y end) = y) as Hm.
    { intros T X Y. destruct v as [|c v]; [reflexivity|].
      destruct c as [[] [] [] [] [] [] [] []]; try reflexivity. destruct (Hd v eq_refl). }
    rewrite Hm, H1, H2. exists b2. split; [reflexivity|]. split; [exact H3|].
    destruct H4 as [H4 H5]. destruct Hs as [H6 H7]. split; congruence.
Qed.

(** every command line has exactly one meaning *)
Lemma arg_value_total args name : exists r, arg_value args name r.
Proof.
  destruct (in_dec (list_eq_dec ascii_dec) name args) as [Hi|Hi].
  2: { exists None. constructor; exact Hi. }
  assert (exists pre post, args = pre ++ name :: post /\ ~ In name pre) as (pre&post&E&Hn).
  { clear - Hi. induction args as [|a args IH]; [destruct Hi|].
    destruct (list_eq_dec ascii_dec a name) as [->|Ha].
    - exists [], args. split; [reflexivity|]. intros [].
    - destruct Hi as [Hi|Hi]; [congruence|]. destruct (IH Hi) as (pre&post&->&Hn).
      exists (a :: pre), post. split; [reflexivity|]. intros [H|H]; congruence || tauto. }
  destruct post as [|v post].
  - exists (Some None). eapply arg_last; eauto.
  - destruct v as [|c v].
    + exists (Some (Some [])). eapply arg_val; eauto. intros t Ht; discriminate.
    + destruct (ascii_dec c "-") as [->|Hc].
      * exists (Some None). eapply arg_dash; eauto.
      * exists (Some (Some (c :: v))). eapply arg_val; eauto. intros t Ht; congruence.
Qed.

(** ** Patterns *)
Lemma match_here_spec pat : forall mem, length pat <= length mem ->
  exists r, match_here mem pat = Some r /\ (r = true <-> Forall2 byte_ok pat (firstn (length pat) mem)).
Proof.
  induction pat as [|p pat IH]; intros mem Hl; cbn [length firstn match_here].
  - exists true. split; [reflexivity|]. split; [constructor|reflexivity].
  - destruct mem as [|m mem]; [cbn in Hl; lia|]. cbn [firstn].
    destruct (IH mem) as (r&E&Hr); [cbn in Hl; lia|].
    destruct (Ascii.eqb_spec p "*") as [Hp|Hp]; cbn [negb andb].
    + exists r. split; [exact E|]. rewrite Hr. split.
      * intros H. constructor; [left; exact Hp|exact H].
      * intros H. inversion H; assumption.
    + destruct (Ascii.eqb_spec p m) as [Hm|Hm]; cbn [negb].
      * exists r. split; [exact E|]. rewrite Hr. split.
        -- intros H. constructor; [right; exact Hm|exact H].
        -- intros H. inversion H; assumption.
      * exists false. split; [reflexivity|].
        split; [discriminate|]. intros H. inversion H as [|? ? ? ? [Hx|Hx]]; congruence.
Qed.

Lemma find_in_region_spec pat n : forall mem off, n + length pat <= length mem ->
  exists r, find_in_region mem pat off n = Some r /\
  match r with
  | Some o => off <= o < off + n /\ occurs_at mem pat (o - off) /\
              forall o', o' < o - off -> ~ occurs_at mem pat o'
  | None => forall o', o' < n -> ~ occurs_at mem pat o'
  end.
Proof.
  induction n as [|n IH]; intros mem off Hl; cbn [find_in_region].
  - exists None. split; [reflexivity|]. intros o' Ho; lia.
  - assert (length pat <= length mem) as Hlm by lia.
    destruct (match_here_spec pat mem Hlm) as (m&E&Hm). rewrite E. destruct m.
    + exists (Some off). split; [reflexivity|]. split; [lia|]. rewrite Nat.sub_diag. split.
      * split; [lia|]. apply Hm. reflexivity.
      * intros o' Ho; lia.
    + assert (~ occurs_at mem pat 0) as H0.
      { intros [_ H]. cbn in H. apply Hm in H. discriminate. }
      assert (forall o, occurs_at mem pat (S o) <-> occurs_at (tl mem) pat o) as Ht.
      { intros o. unfold occurs_at. rewrite skipn_tl. destruct mem as [|x mem].
        - destruct pat; cbn in Hlm; [|lia]. cbn in Hl. lia.
        - cbn [tl length]. split; intros [A1 A2]; split; auto; lia. }
      assert (length (tl mem) = length mem - 1) as Htl by (destruct mem; cbn; lia).
      destruct (IH (tl mem) (S off)) as (r&Er&Hr); [lia|]. exists r. split; [exact Er|].
      destruct r as [o|].
      * destruct Hr as (H1&H2&H3). split; [lia|].
        replace (o - off) with (S (o - S off)) by lia. split; [apply Ht; exact H2|].
        intros [|o'] Ho; [exact H0|]. rewrite Ht. apply H3. lia.
      * intros [|o'] Ho; [exact H0|]. rewrite Ht. apply Hr. lia.
Qed.

Lemma VerifySignature_spec sig : forall mem, length sig <= length mem ->
  exists r, UTIL_VerifySignature mem sig (length sig) = Some r /\ (r = true <-> occurs_at mem sig 0).
Proof.
  induction sig as [|s sig IH]; intros mem Hl; cbn [length UTIL_VerifySignature].
  - exists true. split; [reflexivity|]. split; [|reflexivity]. intros _. split; [cbn; lia|]. cbn. constructor.
  - destruct mem as [|m mem]; [cbn in Hl; lia|].
    destruct (IH mem) as (r&H1&H2); [cbn in Hl; lia|].
    assert (forall P : Prop, (byte_ok s m <-> P) -> (occurs_at (m :: mem) (s :: sig) 0 <-> P /\ occurs_at mem sig 0)) as Hoc.
    { intros P HP. unfold occurs_at. cbn [length skipn firstn Nat.add]. rewrite <- HP. split.
      - intros [A B]. inversion B; subst. repeat split; auto; lia.
      - intros (A&B&C). split; [lia|]. constructor; auto. }
    destruct (Ascii.eqb_spec s "*") as [->|Hs]; cbn [tl].
    + exists r. split; [exact H1|]. rewrite (Hoc True); [tauto|]. unfold byte_ok. tauto.
    + destruct (Ascii.eqb_spec m s) as [->|Hm].
      * exists r. split; [exact H1|]. rewrite (Hoc True); [tauto|]. unfold byte_ok. tauto.
      * exists false. split; [reflexivity|]. rewrite (Hoc False); [intuition discriminate|].
        unfold byte_ok. intuition congruence.
Qed.

Lemma mm_FindPattern_spec regions pat : forall idx,
  exists res, mm_FindPattern regions pat idx = Some res /\
  match res with
  | Some (i, off) =>
      exists pre r post, regions = pre ++ r :: post /\ i = idx + length pre /\
        occurs_at r pat off /\ off + length pat < length r /\
        (forall o, o < off -> ~ occurs_at r pat o) /\
        (forall r' o, In r' pre -> o + length pat < length r' -> ~ occurs_at r' pat o)
  | None => forall r o, In r regions -> o + length pat < length r -> ~ occurs_at r pat o
  end.
Proof.
  induction regions as [|r rs IH]; intros idx; cbn [mm_FindPattern].
  - exists None. split; [reflexivity|]. intros r o [].
  - assert (exists x, find_in_region r pat 0 (length r - length pat) = Some x /\
              match x with
              | Some off => occurs_at r pat off /\ off + length pat < length r /\
                            forall o, o < off -> ~ occurs_at r pat o
              | None => forall o, o + length pat < length r -> ~ occurs_at r pat o
              end) as (x&Ex&Hx).
    { destruct (le_lt_dec (length pat) (length r)) as [Hl|Hl].
      - destruct (find_in_region_spec pat (length r - length pat) r 0 ltac:(lia)) as (x&E&H).
        exists x. split; [exact E|]. destruct x as [o|].
        + rewrite Nat.sub_0_r in H. destruct H as (H1&H2&H3). repeat split; auto; try apply H2; lia.
        + intros o Ho. apply H. lia.
      - replace (length r - length pat) with 0 by lia. exists None. split; [reflexivity|]. intros; lia. }
    rewrite Ex. destruct x as [off|].
    + exists (Some (idx, off)). split; [reflexivity|]. destruct Hx as (H1&H2&H3).
      exists [], r, rs. repeat split; auto; try (cbn; lia); try apply H1.
    + destruct (IH (S idx)) as (res&E&H). exists res. split; [exact E|]. destruct res as [[i off]|].
      * destruct H as (pre&r1&post&->&->&H1&H2&H3&H4). exists (r :: pre), r1, post.
        split; [reflexivity|]. split; [cbn; lia|]. repeat split; auto; try apply H1.
        intros r' o [<-|Hi] Ho; eauto.
      * intros r' o [<-|Hi] Ho; eauto.
Qed.

Lemma not_starts_white_nil : ~ starts_white [].
Proof. intros (c&t&H&_); discriminate. Qed.

Lemma key_value_unique s k1 v1 k2 v2 :
  key_value s k1 v1 -> key_value s k2 v2 -> k1 = k2 /\ v1 = v2.
Proof.
  intros (a1&b1&E1&A1&B1&K1&V1&N1&M1) (a2&b2&E2&A2&B2&K2&V2&N2&M2).
  assert (forall a k b v, Forall white b -> (forall c, In c k -> ~ white c) -> ~ starts_white v ->
                        (k = [] -> b = [] /\ v = []) -> Forall white a ->
                        trimmed_left (a ++ k ++ b ++ v) (k ++ b ++ v)) as HT.
  { intros a k b v Hb Hk Hv Hn Ha. exists a. split; [reflexivity|]. split; [exact Ha|].
    destruct k as [|c k].
    - destruct (Hn eq_refl) as [-> ->]. apply not_starts_white_nil.
    - intros (d&t&H&Hw). cbn in H. inversion H; subst. apply (Hk d); [left; reflexivity|exact Hw]. }
  assert (k1 ++ b1 ++ v1 = k2 ++ b2 ++ v2) as E.
  { eapply trimmed_left_unique; [apply (HT a1); auto|]. rewrite <- E1, E2. apply HT; auto. }
  clear E1 E2.
  assert (k1 = k2 /\ b1 ++ v1 = b2 ++ v2) as [-> E'].
  { assert (forall b v, Forall white b -> ~ starts_white v -> (b = [] -> v = []) ->
             (b ++ v = [] \/ starts_white (b ++ v))) as HB.
    { intros b v Hb Hv Hm. destruct b as [|c b]; [left; rewrite Hm; reflexivity|].
      right. exists c, (b ++ v). inversion Hb; auto. }
    pose proof (HB b1 v1 B1 V1 M1) as H1. pose proof (HB b2 v2 B2 V2 M2) as H2.
    clear - E K1 K2 H1 H2. set (x := b1 ++ v1) in *. set (y := b2 ++ v2) in *.
    clearbody x y. revert k2 E K2. induction k1 as [|c k1 IH]; intros k2 E K2.
    - cbn in E. subst x. destruct k2 as [|d k2]; [auto|].
      destruct H1 as [H1|(e&t&H1&Hw)]; [discriminate|]. cbn in H1. inversion H1; subst.
      destruct (K2 e (or_introl eq_refl) Hw).
    - destruct k2 as [|d k2].
      + cbn in E. subst y. destruct H2 as [H2|(e&t&H2&Hw)]; [discriminate|]. inversion H2; subst.
        destruct (K1 e (or_introl eq_refl) Hw).
      + cbn in E. inversion E; subst. destruct (IH) with (k2 := k2) as [-> ->]; auto.
        * intros e He. apply K1. right; exact He.
        * intros e He. apply K2. right; exact He. }
  split; [reflexivity|]. apply (trimmed_left_unique (b1 ++ v1)).
  - exists b1; auto.
  - rewrite E'. exists b2; auto.
Qed.

Lemma mm_GetCommandArgument_nobuf args name n :
  mm_GetCommandArgument (Some args) name None n = Some (true, None) /\ In name args \/
  mm_GetCommandArgument (Some args) name None n = Some (false, None) /\ ~ In name args.
Proof.
  unfold mm_GetCommandArgument. induction args as [|a args IH]; cbn [find_arg].
  - right. split; [reflexivity|]. intros [].
  - destruct (str_eqb a name) eqn:E.
    + apply str_eqb_spec in E. subst a. left. split; [|left; reflexivity].
      destruct args; reflexivity.
    + assert (a <> name) as Ha by (intros ->; rewrite (proj2 (str_eqb_spec name name) eq_refl) in E; discriminate).
      destruct IH as [[H1 H2]|[H1 H2]]; [left|right]; rewrite H1; (split; [reflexivity|]); cbn; tauto.
Qed.

Lemma first_occ_unique {A} (x : A) p1 q1 p2 q2 :
  p1 ++ x :: q1 = p2 ++ x :: q2 -> ~ In x p1 -> ~ In x p2 -> p1 = p2 /\ q1 = q2.
Proof.
  revert p2. induction p1 as [|a p1 IH]; intros [|b p2] E H1 H2; cbn in E; inversion E; subst.
  - auto.
  - destruct H2. left; reflexivity.
  - destruct H1. left; reflexivity.
  - destruct (IH p2) as [-> ->]; auto.
    + intros H; apply H1; right; exact H.
    + intros H; apply H2; right; exact H.
Qed.

Lemma arg_value_unique args name r1 r2 :
  arg_value args name r1 -> arg_value args name r2 -> r1 = r2.
Proof.
  assert (forall p q, args = p ++ name :: q -> In name args) as HI.
  { intros p q ->. apply in_or_app. right; left; reflexivity. }
  intros [H1|p1 E1 H1|p1 v1 q1 E1 H1|p1 v1 q1 E1 H1 D1] [H2|p2 E2 H2|p2 v2 q2 E2 H2|p2 v2 q2 E2 H2 D2];
    try reflexivity;
    try (exfalso; apply H1; eapply HI; eassumption); try (exfalso; apply H2; eapply HI; eassumption);
    pose proof E2 as E3; rewrite E1 in E3; apply first_occ_unique in E3; auto;
    destruct E3 as [_ E3]; try discriminate; inversion E3; subst; try congruence;
    exfalso; first [eapply D1; reflexivity | eapply D2; reflexivity].
Qed.

Lemma get_ext_loop_spec p : forall q,
  (forall c, In c q -> ~ is_sep c) -> ~ In "."%char (removelast q) ->
  exists r, get_ext_loop (p ++ q) (length (p ++ q)) (length p) = Some r /\
    match r with
    | Some e => extension (p ++ q) e
    | None => forall e, ~ (length q <= length e /\ extension (p ++ q) e)
    end.
Proof.
  induction p as [|c p IH] using rev_ind; intros q Hq Hd.
  - exists None. split; [reflexivity|]. intros e [Hl (_&(a&E)&_)].
    cbn in E. rewrite E, app_length in Hl. cbn in Hl. lia.
  - rewrite <- app_assoc. replace (length (p ++ [c])) with (S (length p)) by (rewrite app_length; cbn; lia).
    cbn [get_ext_loop app]. rewrite nth_error_split_at.
    assert (Hpos : forall e, length (c :: q) <= length e -> extension (p ++ c :: q) e ->
                   exists x, e = x ++ c :: q).
    { intros e Hl (_&(a&E)&_). change (a ++ "."%char :: e) with (a ++ ["."%char] ++ e) in E.
      rewrite app_assoc in E. destruct (app_suffix _ _ _ _ E Hl) as [y ->]. eauto. }
    assert (Hdot : forall e, length e = length q -> extension (p ++ c :: q) e -> c = "."%char).
    { intros e Hl (_&(a&E)&_). apply app_eq_len in E; [|cbn; lia]. destruct E as [_ E]. congruence. }
    destruct (Ascii.eqb c "/" || Ascii.eqb c "\") eqn:Es.
    + exists None. split; [reflexivity|]. intros e [Hl He].
      assert (is_sep c) as Hsep.
      { apply orb_true_iff in Es. destruct Es as [Es|Es]; apply Ascii.eqb_eq in Es; [left|right]; exact Es. }
      destruct (le_lt_dec (length (c :: q)) (length e)) as [Hl2|Hl2].
      * destruct (Hpos e Hl2 He) as (x&->). destruct He as (_&_&Hn&_). apply (Hn c); [|exact Hsep].
        apply in_or_app. right. left. reflexivity.
      * (* e = q, so c = '.' *)
        rewrite (Hdot e) in Hsep; [|cbn in Hl2; lia|exact He].
        destruct Hsep; discriminate.
    + assert (~ is_sep c) as Hns.
      { apply orb_false_iff in Es. destruct Es as [E1 E2]. intros [->| ->]; [discriminate E1|discriminate E2]. }
      destruct (Ascii.eqb_spec c ".") as [->|Hc]; cbn [andb].
      * destruct (Nat.eqb_spec (length p) (length (p ++ "."%char :: q) - 1)) as [Hl|Hl]; cbn [negb].
        -- assert (q = []) as ->. { rewrite app_length in Hl. destruct q; [reflexivity|cbn in Hl; lia]. }
           destruct (IH ["."%char]) as (r&E&Hr).
           ++ intros d [<-|[]]. exact Hns.
           ++ intros [].
           ++ exists r. split; [exact E|]. destruct r as [e|]; [exact Hr|].
              intros e [_ He]. apply (Hr e). split; [|exact He]. destruct He as (He&_). destruct e; [congruence|cbn; lia].
        -- exists (Some q). split.
           ++ do 2 f_equal. change (S (length p)) with (1 + length p). rewrite <- skipn_skipn, skipn_app, skipn_all, Nat.sub_diag. reflexivity.
           ++ assert (q <> []) by (intros ->; rewrite app_length in Hl; cbn in Hl; lia).
              split; [assumption|]. split; [exists p; reflexivity|]. split; assumption.
      * destruct (IH (c :: q)) as (r&E&Hr).
        -- intros d [<-|Hdq]; auto.
        -- destruct q as [|d q]; [intros []|]. cbn [removelast] in *. intros [Hx|Hx]; [congruence|exact (Hd Hx)].
        -- exists r. split; [exact E|]. destruct r as [e|]; [exact Hr|].
           intros e [Hl He]. apply (Hr e). split; [|exact He].
           destruct (le_lt_dec (length (c :: q)) (length e)) as [Hl2|Hl2]; [exact Hl2|exfalso].
           apply Hc. apply (Hdot e); [cbn in Hl2; lia|exact He].
Qed.

Lemma UTIL_GetExtension_spec s :
  exists r, UTIL_GetExtension s = Some r /\
    match r with Some e => extension s e | None => forall e, ~ extension s e end.
Proof.
  destruct (get_ext_loop_spec s []) as (r&E&H); [intros c []|intros []|].
  rewrite app_nil_r in *. exists r. split; [exact E|]. destruct r as [e|]; [exact H|].
  intros e He. apply (H e). split; [cbn; lia|exact He].
Qed.

Lemma extension_unique s e1 e2 : extension s e1 -> extension s e2 -> e1 = e2.
Proof.
  assert (forall e1 e2, length e1 < length e2 -> extension s e1 -> extension s e2 -> False) as Hlt.
  { clear e1 e2. intros e1 e2 Hl (N1&(a1&E1)&_) (N2&(a2&E2)&_&D2). apply D2.
    rewrite E1 in E2. clear E1 D2.
    assert (exists x, e2 = x ++ "."%char :: e1) as [x ->].
    { revert a2 E2. induction a1 as [|c a1 IH]; intros a2 E2.
      - destruct a2 as [|d a2]; cbn in E2; inversion E2; subst; [lia|].
        rewrite app_length in Hl. cbn in Hl. lia.
      - destruct a2 as [|d a2]; cbn in E2; inversion E2; subst.
        + exists a1. reflexivity.
        + eauto. }
    destruct (exists_last N1) as (y&z&->).
    replace (x ++ "."%char :: y ++ [z]) with ((x ++ "."%char :: y) ++ [z]) by (rewrite <- app_assoc; reflexivity).
    rewrite removelast_last. apply in_or_app. right. left. reflexivity. }
  intros H1 H2. destruct (lt_eq_lt_dec (length e1) (length e2)) as [[L|L]|L].
  - destruct (Hlt _ _ L H1 H2).
  - destruct H1 as (_&(a1&E1)&_), H2 as (_&(a2&E2)&_). rewrite E1 in E2. clear E1.
    apply app_eq_len in E2; [|cbn; lia]. destruct E2 as [_ E2]. congruence.
  - destruct (Hlt _ _ L H2 H1).
Qed.
