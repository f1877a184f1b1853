(** Proofs about the generated hook managers. *)
From Coq Require Import List ZArith Bool Lia.
From Verif Require Import Base ListModel ProtoModel ProtoSpec ProtoProofs GenModel GenSpec.
Import ListNotations.
Local Open Scope Z_scope.
Notation length := List.length.

(** ** The loops *)
Definition key (c : context) : proto * Z * Z := (c_proto c, c_offs c, c_idx c).
Definition key_same (a b : proto * Z * Z) : Prop :=
  identical (fst (fst a)) (fst (fst b)) /\ snd (fst a) = snd (fst b) /\ snd a = snd b.

Lemma key_same_sym a b : key_same a b -> key_same b a.
Proof. intros (H1&H2&H3). repeat split; auto using identical_sym. all: apply identical_sym; exact H1. Qed.
Lemma key_same_trans a b c : key_same a b -> key_same b c -> key_same a c.
Proof. intros (H1&H2&H3) (K1&K2&K3). split; [eauto using identical_trans|split; congruence]. Qed.
Lemma key_same_refl a : key_same a a.
Proof. split; [apply identical_refl|split; reflexivity]. Qed.

Lemma ctx_equal_spec c p o i : proto_wf (c_proto c) -> proto_wf p ->
  exists e, ctx_equal c p o i = Some e /\ (e = true <-> key_same (key c) (p, o, i)).
Proof.
  intros Hc Hp. unfold ctx_equal. destruct (exactly_equal_total _ _ Hc Hp) as [r Hr]. rewrite Hr.
  eexists. split; [reflexivity|]. pose proof (exactly_equal_spec _ _ Hc Hp) as Hs. rewrite Hr in Hs.
  rewrite !andb_true_iff, !Z.eqb_eq. unfold key_same, key; cbn. rewrite <- Hs. split.
  - intros [[-> ->] ->]. auto.
  - intros (H&->&->). inversion H. auto.
Qed.

Lemma make_loop_spec p o i : proto_wf p -> forall l, Forall (fun c => proto_wf (c_proto c)) l ->
  forall r, make_loop l p o i = Some r ->
  match r with
  | None => Forall (fun c => ~ key_same (key c) (p, o, i)) l
  | Some (l', f) =>
      exists l1 c l2, l = l1 ++ c :: l2 /\ l' = l1 ++ set_ref c (c_ref c + 1) :: l2 /\ f = c_pub c
                      /\ key_same (key c) (p, o, i)
  end.
Proof.
  intros Hp. induction l as [|c l IH]; intros Hl r H; cbn [make_loop] in H.
  - inversion H. constructor.
  - inversion Hl as [|? ? Hc Hl']; subst.
    destruct (ctx_equal_spec c p o i Hc Hp) as (e&He&Hs). rewrite He in H. destruct e.
    + destruct (c_ref c =? int_max); [discriminate|]. inversion H; subst.
      exists [], c, l. repeat split; try reflexivity; apply Hs; reflexivity.
    + destruct (make_loop l p o i) as [q|] eqn:E; [|discriminate]. specialize (IH Hl' q eq_refl).
      inversion H; subst. destruct q as [[l' f]|].
      * destruct IH as (l1&d&l2&->&->&->&Hk). exists (c :: l1), d, l2. auto.
      * constructor; [|exact IH]. intro K. apply Hs in K. discriminate.
Qed.

(** the loop is defined unless a counter overflows *)
Lemma make_loop_defined p o i : proto_wf p -> forall l, Forall (fun c => proto_wf (c_proto c)) l ->
  Forall (fun c => c_ref c <> int_max) l -> make_loop l p o i <> None.
Proof.
  intros Hp. induction l as [|c l IH]; intros Hl Hn; cbn [make_loop]; [discriminate|].
  inversion Hl as [|? ? Hc Hl']; subst. inversion Hn as [|? ? Hr Hn']; subst.
  destruct (ctx_equal_spec c p o i Hc Hp) as (e&He&_). rewrite He. destruct e.
  - destruct (Z.eqb_spec (c_ref c) int_max); [contradiction|discriminate].
  - destruct (make_loop l p o i) as [q|]; [destruct q as [[? ?]|]; discriminate|]. exfalso. apply IH; auto.
Qed.

Lemma release_spec f : forall l,
  (~ In f (map c_pub l) /\ release_hook_man l f = (l, [])) \/
  exists l1 c l2, l = l1 ++ c :: l2 /\ c_pub c = f /\ ~ In f (map c_pub l1) /\
    release_hook_man l f = (if c_ref c =? 1 then (l1 ++ l2, [f]) else (l1 ++ set_ref c (c_ref c - 1) :: l2, [])).
Proof.
  induction l as [|c l IH]; cbn [release_hook_man map]; [left; split; [intros []|reflexivity]|].
  destruct (Z.eqb_spec (c_pub c) f) as [E|E].
  - right. exists [], c, l. repeat split; auto. destruct (Z.eqb_spec (c_ref c - 1) 0), (Z.eqb_spec (c_ref c) 1); try lia; subst; reflexivity.
  - destruct IH as [[Hn ->]|(l1&d&l2&->&Hd&Hn&->)].
    + left. split; [intros [H|H]; [congruence|contradiction]|reflexivity].
    + right. exists (c :: l1), d, l2. repeat split; auto.
      * intros [H|H]; [congruence|contradiction].
      * destruct (c_ref d =? 1); reflexivity.
Qed.

(** ** What can be generated *)
Lemma has_bit f n : 0 <= n -> has f (2 ^ n) = Z.testbit f n.
Proof.
  intros Hn. unfold has. destruct (Z.testbit f n) eqn:E.
  - apply negb_true_iff, Z.eqb_neq. intro K. pose proof (f_equal (fun z => Z.testbit z n) K) as J. cbn beta in J.
    rewrite Z.land_spec, E, Z.pow2_bits_true, Z.bits_0 in J by lia. discriminate.
  - apply negb_false_iff, Z.eqb_eq. apply Z.bits_inj'. intros m Hm. rewrite Z.land_spec, Z.bits_0.
    destruct (Z.eq_dec m n) as [->|N]; [rewrite E; reflexivity|].
    rewrite Z.pow2_bits_false by lia. apply andb_false_r.
Qed.

Lemma has_two f n m : 0 <= n -> 0 <= m -> (Z.land f (Z.lor (2 ^ n) (2 ^ m)) =? 0) = negb (Z.testbit f n || Z.testbit f m).
Proof.
  intros Hn Hm. rewrite Z.land_lor_distr_r.
  assert (A : forall a b, 0 <= n -> (Z.lor a b =? 0) = (a =? 0) && (b =? 0)).
  { intros a b _. destruct (Z.eqb_spec (Z.lor a b) 0) as [E|E].
    - apply Z.lor_eq_0_iff in E. destruct E as [-> ->]. reflexivity.
    - symmetry. apply andb_false_iff. destruct (Z.eqb_spec a 0), (Z.eqb_spec b 0); subst; auto. exfalso. apply E. reflexivity. }
  rewrite A by lia. pose proof (has_bit f n Hn) as H1. pose proof (has_bit f m Hm) as H2. unfold has in H1, H2.
  rewrite negb_orb, <- H1, <- H2, !negb_involutive. reflexivity.
Qed.

Lemma pass_supported_spec p : pass_supported p = true <-> ok_pass p.
Proof.
  unfold pass_supported, ok_pass.
  change (Z.lor PassFlag_ByVal PassFlag_ByRef) with (Z.lor (2 ^ 0) (2 ^ 1)).
  rewrite has_two by lia.
  change PassFlag_ByVal with (2 ^ 0). change PassFlag_CCtor with (2 ^ 5). change PassFlag_ODtor with (2 ^ 2).
  change PassFlag_AssignOp with (2 ^ 4). change PassFlag_OCtor with (2 ^ 3).
  rewrite !has_bit by lia. unfold PassType_Basic, PassType_Float, PassType_Object.
  assert (P : forall (x : bool) z, negb (x && (z =? 0)) = true <-> (x = true -> z <> 0)).
  { intros x z. destruct x, (Z.eqb_spec z 0); cbn; intuition congruence. }
  set (bad := (Z.testbit (pi_flags p) 5 && (pi_copy p =? 0)) || (Z.testbit (pi_flags p) 2 && (pi_dtor p =? 0))
              || (Z.testbit (pi_flags p) 4 && (pi_assign p =? 0)) || (Z.testbit (pi_flags p) 3 && (pi_normal p =? 0))).
  assert (B : bad = false <-> (Z.testbit (pi_flags p) 2 = true -> pi_dtor p <> 0) /\
     (Z.testbit (pi_flags p) 3 = true -> pi_normal p <> 0) /\
     (Z.testbit (pi_flags p) 4 = true -> pi_assign p <> 0) /\
     (Z.testbit (pi_flags p) 5 = true -> pi_copy p <> 0)).
  { rewrite <- !P, <- (negb_true_iff bad). unfold bad. rewrite !negb_orb, !andb_true_iff. tauto. }
  rewrite <- B. clear B P. clearbody bad.
  destruct (Z.testbit (pi_flags p) 0), (Z.testbit (pi_flags p) 1), bad; cbn [orb andb negb];
  destruct (Z.eqb_spec (pi_type p) 1) as [E1|E1]; destruct (Z.eqb_spec (pi_type p) 2) as [E2|E2];
  destruct (Z.eqb_spec (pi_type p) 3) as [E3|E3]; cbn [orb andb negb]; try lia;
  try (split; [intros _|intros _; reflexivity]); try (split; [discriminate|]); try tauto; try congruence.
  all: try (intros (H1&H2&H3); exfalso; destruct H1 as [H1|[H1|H1]]; congruence).
  all: try (intros (H1&H2&H3); exfalso; destruct H2; congruence).
  all: try (intros (H1&H2&H3); exfalso; discriminate (H3 E3 eq_refl)).
Qed.

(** bits 6, 7 and 30 are all that auto-detection changes *)
Lemma lowbits_clear f n m : 0 <= m -> n <> m -> Z.testbit (clear f (2 ^ n)) m = Z.testbit f m.
Proof. intros Hm N. unfold clear. rewrite Z.ldiff_spec, Z.pow2_bits_false by lia. apply andb_true_r. Qed.
Lemma lowbits_set f n m : 0 <= m -> n <> m -> Z.testbit (Z.lor f (2 ^ n)) m = Z.testbit f m.
Proof. intros Hm N. rewrite Z.lor_spec, Z.pow2_bits_false by lia. apply orb_false_r. Qed.

Lemma auto_ret_bits b p m : 0 <= m < 6 -> Z.testbit (auto_ret_flags b p) m = Z.testbit (pi_flags p) m.
Proof.
  intros Hm. unfold auto_ret_flags. cbn zeta.
  change PassFlag_RetMem with (2 ^ 6). change PassFlag_RetReg with (2 ^ 7).
  repeat match goal with |- context [if ?c then _ else _] => destruct c end;
  repeat match goal with |- context [match b with _ => _ end] => destruct b end;
  repeat match goal with |- context [if ?c then _ else _] => destruct c end;
  rewrite ?lowbits_set, ?lowbits_clear by lia; reflexivity.
Qed.

Lemma ok_pass_ext p q : pi_type p = pi_type q -> pi_normal p = pi_normal q -> pi_copy p = pi_copy q ->
  pi_dtor p = pi_dtor q -> pi_assign p = pi_assign q ->
  (forall m, 0 <= m < 6 -> Z.testbit (pi_flags p) m = Z.testbit (pi_flags q) m) -> ok_pass p <-> ok_pass q.
Proof.
  intros E1 E2 E3 E4 E5 B. unfold ok_pass. rewrite E1, E2, E3, E4, E5.
  rewrite (B 0), (B 1), (B 2), (B 3), (B 4), (B 5) by lia. reflexivity.
Qed.

Lemma ok_auto_ret b p : ok_pass (auto_ret b p) <-> ok_pass p.
Proof. apply ok_pass_ext; try reflexivity. intros m Hm. cbn [auto_ret set_flags pi_flags]. apply auto_ret_bits. exact Hm. Qed.

Lemma ok_auto_param b p : ok_pass (auto_param b p) <-> ok_pass p.
Proof.
  unfold auto_param. destruct b; try reflexivity; destruct (_ && _); try reflexivity;
  apply ok_pass_ext; try reflexivity; intros m Hm; cbn [set_flags pi_flags]; unfold PassFlag_ForcedByRef;
  apply lowbits_set; lia.
Qed.

Lemma conv_spec c : Z.ldiff c CallConv_HasVafmt = CallConv_ThisCall <->
  exists v w : bool, c = 1 + (if v then 65536 else 0) + (if w then 131072 else 0).
Proof.
  split.
  - intros H. exists (Z.testbit c 16), (Z.testbit c 17).
    assert (E : c = Z.lor (Z.lor 1 (if Z.testbit c 16 then 2 ^ 16 else 0)) (if Z.testbit c 17 then 2 ^ 17 else 0)).
    { apply Z.bits_inj'. intros m Hm. rewrite !Z.lor_spec.
      pose proof (f_equal (fun z => Z.testbit z m) H) as J. cbn beta in J.
      unfold CallConv_HasVafmt, CallConv_ThisCall in J. rewrite Z.ldiff_spec, Z.lor_spec in J.
      destruct (Z.eq_dec m 16) as [->|N1]; [|destruct (Z.eq_dec m 17) as [->|N2]].
      - destruct (Z.testbit c 16), (Z.testbit c 17); reflexivity.
      - destruct (Z.testbit c 16), (Z.testbit c 17); reflexivity.
      - rewrite !Z.pow2_bits_false in J by lia. cbn in J. rewrite andb_true_r in J. rewrite J.
        destruct (Z.testbit c 16), (Z.testbit c 17); rewrite ?Z.pow2_bits_false, ?Z.bits_0 by lia; rewrite ?orb_false_r; reflexivity. }
    rewrite E at 1. destruct (Z.testbit c 16), (Z.testbit c 17); reflexivity.
  - intros (v&w&->). destruct v, w; reflexivity.
Qed.

Lemma forallb_ok b l : forallb pass_supported (map (auto_param b) l) = true <-> Forall ok_pass l.
Proof.
  rewrite forallb_forall, Forall_forall. split; intros H x Hx.
  - apply (ok_auto_param b), pass_supported_spec, H, in_map, Hx.
  - apply in_map_iff in Hx. destruct Hx as (y&<-&Hy). apply pass_supported_spec, ok_auto_param, H, Hy.
Qed.

Lemma generate_spec b p a : a <> 0 -> (generate b p a = a <-> ok_proto p).
Proof.
  intros Ha. unfold generate, ok_proto. destruct (Z.ltb_spec (pr_version p) 1) as [Hv|Hv].
  - split; [congruence|intros [? _]; lia].
  - cbn [auto_detect pr_conv pr_ret pr_params]. rewrite <- conv_spec. cbn [auto_ret set_flags pi_size].
    destruct (Z.eqb_spec (Z.ldiff (pr_conv p) CallConv_HasVafmt) CallConv_ThisCall) as [Hc|Hc]; cbn [negb].
    2: { split; [congruence|intros (_&K&_); contradiction]. }
    change (PassInfo (pi_size (pr_ret p)) (pi_type (pr_ret p)) (auto_ret_flags b (pr_ret p)) (pi_normal (pr_ret p))
       (pi_copy (pr_ret p)) (pi_dtor (pr_ret p)) (pi_assign (pr_ret p))) with (auto_ret b (pr_ret p)).
    pose proof (pass_supported_spec (auto_ret b (pr_ret p))) as Hs. rewrite ok_auto_ret in Hs.
    pose proof (forallb_ok b (pr_params p)) as Hq.
    destruct (pass_supported (auto_ret b (pr_ret p))); destruct (Z.eqb_spec (pi_size (pr_ret p)) 0) as [Hz|Hz];
      destruct (forallb pass_supported (map (auto_param b) (pr_params p))); cbn [negb andb]; intuition congruence.
Qed.

(** ** The invariant *)
Fixpoint cnt (l : list context) (f : Z) : Z :=
  match l with [] => 0 | c :: l => (if c_pub c =? f then c_ref c else 0) + cnt l f end.
Lemma cnt_app l1 l2 f : cnt (l1 ++ l2) f = cnt l1 f + cnt l2 f.
Proof. induction l1 as [|c l1 IH]; cbn [cnt app]; lia. Qed.
Lemma cnt_absent l f : ~ In f (map c_pub l) -> cnt l f = 0.
Proof.
  induction l as [|c l IH]; cbn [cnt map]; intros H; [reflexivity|].
  destruct (Z.eqb_spec (c_pub c) f) as [E|E]; [exfalso; apply H; left; exact E|].
  rewrite IH; [reflexivity|]. intro K. apply H. right. exact K.
Qed.

Fixpoint distinct (l : list (proto * Z * Z)) : Prop :=
  match l with [] => True | k :: l => Forall (fun d => ~ key_same k d) l /\ distinct l end.
Lemma distinct_remove l1 k l2 : distinct (l1 ++ k :: l2) -> distinct (l1 ++ l2).
Proof.
  induction l1 as [|a l1 IH]; cbn [app distinct]; [intros [_ H]; exact H|]. intros [H1 H2]. split; [|auto].
  apply Forall_app in H1. destruct H1 as [H1 H3]. inversion H3. apply Forall_app. auto.
Qed.
Lemma distinct_snoc l k : distinct l -> Forall (fun d => ~ key_same d k) l -> distinct (l ++ [k]).
Proof.
  induction l as [|a l IH]; cbn [app distinct]; intros H K; [split; constructor|]. destruct H as [H1 H2].
  inversion K; subst. split; [|auto]. apply Forall_app. split; [exact H1|]. constructor; [assumption|constructor].
Qed.
Lemma distinct_same l1 c l2 d : distinct (map key (l1 ++ c :: l2)) -> In d (l1 ++ c :: l2) ->
  key_same (key c) (key d) -> d = c.
Proof.
  induction l1 as [|a l1 IH]; cbn [app map distinct]; intros [H1 H2] Hin Hk.
  - destruct Hin as [->|Hin]; [reflexivity|]. rewrite Forall_forall in H1. exfalso.
    apply (H1 (key d)); [apply in_map; exact Hin|exact Hk].
  - destruct Hin as [->|Hin]; [|auto]. exfalso. rewrite Forall_forall in H1.
    apply (H1 (key c)); [apply in_map; apply in_or_app; right; left; reflexivity|]. apply key_same_sym; exact Hk.
Qed.

Record ginv (l : list context) : Prop := {
  g_nd : NoDup (map c_pub l);
  g_ok : Forall (fun c => 0 < c_ref c /\ c_pub c <> 0 /\ ok_proto (c_proto c) /\ exists raw, fill raw = Some (c_proto c)) l;
  g_key : distinct (map key l) }.

Lemma ginv_wf l : ginv l -> Forall (fun c => proto_wf (c_proto c)) l.
Proof.
  intros [_ H _]. apply Forall_forall. intros c Hc. rewrite Forall_forall in H.
  destruct (H c Hc) as (_&_&_&raw&Hr). exact (fill_wf _ _ Hr).
Qed.

Lemma ginv_nil : ginv [].
Proof. constructor; cbn; constructor. Qed.

Lemma NoDup_mid {A} (l1 : list A) x l2 : NoDup (l1 ++ x :: l2) -> ~ In x l1 /\ ~ In x l2 /\ NoDup (l1 ++ l2).
Proof.
  intros H. pose proof (NoDup_remove_2 _ _ _ H) as K. split; [|split].
  - intro J. apply K. apply in_or_app. auto.
  - intro J. apply K. apply in_or_app. auto.
  - exact (NoDup_remove_1 _ _ _ H).
Qed.

Lemma cnt_in l c : NoDup (map c_pub l) -> In c l -> cnt l (c_pub c) = c_ref c.
Proof.
  intros Hn Hi. apply in_split in Hi. destruct Hi as (l1&l2&->).
  rewrite map_app in Hn. cbn [map] in Hn. apply NoDup_mid in Hn. destruct Hn as (H1&H2&_).
  rewrite cnt_app. cbn [cnt]. rewrite Z.eqb_refl, !cnt_absent by assumption. lia.
Qed.

Lemma cnt_live l f : ginv l -> (0 < cnt l f <-> exists c, In c l /\ c_pub c = f).
Proof.
  intros G. split.
  - intros H. destruct (in_dec Z.eq_dec f (map c_pub l)) as [Hi|Hi].
    + apply in_map_iff in Hi. destruct Hi as (c&E&Hc). exists c. auto.
    + rewrite (cnt_absent _ _ Hi) in H. lia.
  - intros (c&Hc&<-). rewrite (cnt_in _ _ (g_nd _ G) Hc).
    pose proof (g_ok _ G) as Ho. rewrite Forall_forall in Ho. apply Ho. exact Hc.
Qed.

(** ** One call *)
Inductive step_case (b : build) (l : list context) : gop -> list context -> gev -> Prop :=
| SC_shared l1 c l2 raw p o i a :
    b <> Linux64 -> l = l1 ++ c :: l2 -> fill raw = Some p -> key_same (key c) (p, o, i) ->
    step_case b l (Make raw o i a) (l1 ++ set_ref c (c_ref c + 1) :: l2) (Made raw o i (c_pub c))
| SC_new raw p o i a :
    b <> Linux64 -> fill raw = Some p -> Forall (fun c => ~ key_same (key c) (p, o, i)) l ->
    generate b p a = a -> a <> 0 ->
    step_case b l (Make raw o i a) (l ++ [Ctx 1 p o i a]) (Made raw o i a)
| SC_refused raw p o i a :
    b <> Linux64 -> fill raw = Some p -> Forall (fun c => ~ key_same (key c) (p, o, i)) l ->
    generate b p a = 0 ->
    step_case b l (Make raw o i a) l (Made raw o i 0)
| SC_none raw o i a : b = Linux64 -> step_case b l (Make raw o i a) l (Made raw o i 0)
| SC_unknown f : ~ In f (map c_pub l) -> step_case b l (Release f) l (Released f [])
| SC_dec l1 c l2 : l = l1 ++ c :: l2 -> c_ref c <> 1 ->
    step_case b l (Release (c_pub c)) (l1 ++ set_ref c (c_ref c - 1) :: l2) (Released (c_pub c) [])
| SC_last l1 c l2 : l = l1 ++ c :: l2 -> c_ref c = 1 ->
    step_case b l (Release (c_pub c)) (l1 ++ l2) (Released (c_pub c) [c_pub c]).

Lemma generate_cases b p a : generate b p a = a \/ generate b p a = 0.
Proof.
  unfold generate. destruct (pr_version p <? 1); [auto|]. cbn zeta.
  destruct (negb _); [auto|]. destruct (_ && _); [auto|]. destruct (forallb _ _); auto.
Qed.

Lemma gstep_case b l o l' e : ginv l -> gstep b l o = Some (l', e) -> step_case b l o l' e.
Proof.
  intros G H. destruct o as [raw o i a|f]; cbn [gstep] in H.
  - destruct (make_hook_man b l raw o i a) as [[l0 f0]|] eqn:E; [|discriminate].
    cbn [fst snd] in H. inversion H; subst l0 e. clear H.
    assert (D : b = Linux64 \/ b <> Linux64) by (destruct b; auto; right; discriminate).
    destruct D as [D|D].
    { subst b. cbn in E. inversion E. apply SC_none. reflexivity. }
    assert (E' : (do p <- fill raw; do r <- make_loop l p o i;
                  match r with Some (l', f) => Some (l', f)
                  | None => let f := generate b p a in if f =? 0 then Some (l, 0) else Some (l ++ [Ctx 1 p o i f], f) end) = Some (l', f0))
      by (destruct b; try exact E; contradiction).
    clear E. destruct (fill raw) as [p|] eqn:Ef; [|discriminate].
    destruct (make_loop l p o i) as [r|] eqn:El; [|discriminate].
    pose proof (make_loop_spec p o i (fill_wf _ _ Ef) l (ginv_wf l G) r El) as S.
    destruct r as [[l0 f1]|].
    + inversion E'; subst l0 f1. destruct S as (l1&c&l2&->&->&->&Hk). eapply SC_shared; eauto.
    + cbn zeta in E'. destruct (generate_cases b p a) as [Hg|Hg].
      * rewrite Hg in E'. destruct (Z.eqb_spec a 0) as [Ea|Ea].
        -- inversion E'; subst l'. rewrite Ea in Hg |- *. eapply SC_refused; eauto.
        -- inversion E'; subst. eapply SC_new; eauto.
      * rewrite Hg in E'. cbn in E'. inversion E'; subst. eapply SC_refused; eauto.
  - destruct (release_spec f l) as [[Hn Hr]|(l1&c&l2&Hl&Hf&Hn&Hr)]; rewrite Hr in H.
    + inversion H; subst. apply SC_unknown. exact Hn.
    + subst f. destruct (Z.eqb_spec (c_ref c) 1); inversion H; subst l' e.
      * eapply SC_last; eauto.
      * eapply SC_dec; eauto.
Qed.

Definition answer_ok (l : list context) (o : gop) : Prop :=
  match o with Make _ _ _ a => a <> 0 /\ ~ In a (map c_pub l) | Release _ => True end.

Lemma map_pub_set l1 c n l2 : map c_pub (l1 ++ set_ref c n :: l2) = map c_pub (l1 ++ c :: l2).
Proof. rewrite !map_app. reflexivity. Qed.
Lemma map_key_set l1 c n l2 : map key (l1 ++ set_ref c n :: l2) = map key (l1 ++ c :: l2).
Proof. rewrite !map_app. reflexivity. Qed.

Lemma step_ginv b l o l' e : ginv l -> answer_ok l o -> step_case b l o l' e -> ginv l'.
Proof.
  intros G A S. destruct G as [G1 G2 G3].
  destruct S as [l1 c l2 raw p o i a _ Hl Hf Hk|raw p o i a _ Hf Hn Hg Ha|raw p o i a _ Hf Hn Hg|raw o i a Hb|f Hn|l1 c l2 Hl Hr|l1 c l2 Hl Hr];
    try (constructor; assumption).
  - subst l. constructor; [rewrite map_pub_set; exact G1| |rewrite map_key_set; exact G3].
    apply Forall_app in G2. destruct G2 as [H1 H2]. inversion H2 as [|? ? (H3&H4&H5) H6]; subst.
    apply Forall_app. split; [exact H1|]. constructor; [cbn|exact H6]. split; [lia|auto].
  - destruct A as [_ A]. constructor.
    + rewrite map_app. cbn [map c_pub]. apply (NoDup_Add (a := a) (l := map c_pub l)).
      * rewrite <- (app_nil_r (map c_pub l)) at 1. apply Add_app.
      * auto.
    + apply Forall_app. split; [exact G2|]. constructor; [cbn|constructor]. split; [lia|split; [exact Ha|]].
      split; [exact (proj1 (generate_spec b p a Ha) Hg)|]. exists raw. exact Hf.
    + rewrite map_app. cbn [map]. apply distinct_snoc; [exact G3|].
      rewrite Forall_forall in Hn |- *. intros k Hki. apply in_map_iff in Hki. destruct Hki as (c&<-&Hc).
      exact (Hn c Hc).
  - subst l. constructor; [rewrite map_pub_set; exact G1| |rewrite map_key_set; exact G3].
    apply Forall_app in G2. destruct G2 as [H1 H2]. inversion H2 as [|? ? (H3&H4&H5) H6]; subst.
    apply Forall_app. split; [exact H1|]. constructor; [cbn|exact H6]. split; [lia|auto].
  - subst l. rewrite map_app in *. cbn [map] in *. apply NoDup_mid in G1. destruct G1 as (_&_&G1).
    apply Forall_app in G2. destruct G2 as [H1 H2]. inversion H2 as [|? ? H3 H6]; subst.
    apply distinct_remove in G3.
    constructor; [rewrite map_app; exact G1|apply Forall_app; auto|rewrite map_app; exact G3].
Qed.

Lemma step_cnt b l o l' e f : ginv l -> answer_ok l o -> step_case b l o l' e -> f <> 0 ->
  cnt l' f = count_event f (cnt l f) e.
Proof.
  intros G A S Hf0. destruct G as [G1 G2 G3].
  destruct S as [l1 c l2 raw p o i a _ Hl Hf Hk|raw p o i a _ Hf Hn Hg Ha|raw p o i a _ Hf Hn Hg|raw o i a Hb|g Hn|l1 c l2 Hl Hr|l1 c l2 Hl Hr];
    cbn [count_event].
  - subst l. rewrite !cnt_app. cbn [cnt set_ref c_pub c_ref]. destruct (c_pub c =? f); lia.
  - rewrite cnt_app. cbn [cnt c_pub c_ref]. destruct (a =? f); lia.
  - destruct (Z.eqb_spec 0 f); [congruence|reflexivity].
  - destruct (Z.eqb_spec 0 f); [congruence|reflexivity].
  - destruct (Z.eqb_spec g f); [|reflexivity]. subst g. rewrite (cnt_absent l f) by exact Hn. reflexivity.
  - subst l. rewrite map_app in G1. cbn [map] in G1. apply NoDup_mid in G1. destruct G1 as (N1&N2&_).
    apply Forall_app in G2. destruct G2 as [_ H2]. inversion H2 as [|? ? (H3&_) H6]; subst.
    rewrite !cnt_app. cbn [cnt set_ref c_pub c_ref]. destruct (Z.eqb_spec (c_pub c) f) as [E|E]; [|lia].
    rewrite E in *. rewrite (cnt_absent l1), (cnt_absent l2) by assumption. lia.
  - subst l. rewrite map_app in G1. cbn [map] in G1. apply NoDup_mid in G1. destruct G1 as (N1&N2&_).
    rewrite !cnt_app. cbn [cnt]. destruct (Z.eqb_spec (c_pub c) f) as [E|E]; [|lia].
    rewrite E in *. rewrite (cnt_absent l1), (cnt_absent l2) by assumption. lia.
Qed.

Lemma step_keys b l o l' e c c' : ginv l -> answer_ok l o -> step_case b l o l' e ->
  In c l -> In c' l' -> c_pub c = c_pub c' -> key c = key c'.
Proof.
  intros G A S Hc Hc' E.
  assert (U : forall d, In d l -> c_pub d = c_pub c -> d = c).
  { intros d Hd Ed. destruct G as [G1 _ _]. apply in_split in Hc. destruct Hc as (a1&a2&->).
    rewrite map_app in G1. cbn [map] in G1. apply NoDup_mid in G1. destruct G1 as (N1&N2&_).
    apply in_app_or in Hd. destruct Hd as [Hd|[Hd|Hd]]; [|auto|].
    - exfalso. apply N1. rewrite <- Ed. apply in_map. exact Hd.
    - exfalso. apply N2. rewrite <- Ed. apply in_map. exact Hd. }
  destruct S as [l1 d l2 raw p o i a _ Hl Hf Hk|raw p o i a _ Hf Hn Hg Ha|raw p o i a _ Hf Hn Hg|raw o i a Hb|g Hn|l1 d l2 Hl Hr|l1 d l2 Hl Hr].
  - subst l. apply in_app_or in Hc'. destruct Hc' as [H|[H|H]].
    + rewrite (U c'); [reflexivity|apply in_or_app; auto|congruence].
    + subst c'. cbn in E. change (key c = key d). rewrite (U d); [reflexivity|apply in_or_app; right; left; reflexivity|congruence].
    + rewrite (U c'); [reflexivity|apply in_or_app; right; right; exact H|congruence].
  - apply in_app_or in Hc'. destruct Hc' as [H|[H|[]]].
    + rewrite (U c'); [reflexivity|exact H|congruence].
    + subst c'. cbn in E. destruct A as [_ A]. exfalso. apply A. rewrite <- E. apply in_map. exact Hc.
  - rewrite (U c'); [reflexivity|exact Hc'|congruence].
  - rewrite (U c'); [reflexivity|exact Hc'|congruence].
  - rewrite (U c'); [reflexivity|exact Hc'|congruence].
  - subst l. apply in_app_or in Hc'. destruct Hc' as [H|[H|H]].
    + rewrite (U c'); [reflexivity|apply in_or_app; auto|congruence].
    + subst c'. cbn in E. change (key c = key d). rewrite (U d); [reflexivity|apply in_or_app; right; left; reflexivity|congruence].
    + rewrite (U c'); [reflexivity|apply in_or_app; right; right; exact H|congruence].
  - subst l. rewrite (U c'); [reflexivity| |congruence].
    apply in_app_or in Hc'. apply in_or_app. destruct Hc'; [left|right; right]; assumption.
Qed.

(** ** Histories *)
Lemma grun_split b : forall log1 log2 ops l l'', grun b l ops = Some (l'', log1 ++ log2) ->
  exists ops1 ops2 l', ops = ops1 ++ ops2 /\ grun b l ops1 = Some (l', log1) /\ grun b l' ops2 = Some (l'', log2).
Proof.
  induction log1 as [|e log1 IH]; intros log2 ops l l'' H.
  - exists [], ops, l. auto.
  - destruct ops as [|o ops]; cbn [grun app] in H; [discriminate|].
    destruct (gstep b l o) as [[l1 e1]|] eqn:E; [|discriminate]. cbn [fst snd] in H.
    destruct (grun b l1 ops) as [[l2 log]|] eqn:E2; [|discriminate]. cbn [fst snd] in H.
    inversion H; subst l2 e1 log. destruct (IH _ _ _ _ E2) as (o1&o2&l'&->&R1&R2).
    exists (o :: o1), o2, l'. split; [reflexivity|]. split; [|exact R2].
    cbn [grun]. rewrite E. cbn [fst snd]. rewrite R1. reflexivity.
Qed.

Lemma honest_split b : forall ops1 ops2 l l' log, honest b l (ops1 ++ ops2) -> grun b l ops1 = Some (l', log) ->
  honest b l ops1 /\ honest b l' ops2.
Proof.
  induction ops1 as [|o ops1 IH]; intros ops2 l l' log H R; cbn [grun app honest] in *.
  - inversion R; subst. auto.
  - destruct H as [H1 H2]. destruct (gstep b l o) as [[l1 e1]|] eqn:E; [|discriminate]. cbn [fst snd] in R.
    destruct (grun b l1 ops1) as [[l2 log1]|] eqn:E2; [|discriminate]. cbn [fst snd] in R. inversion R; subst.
    destruct (IH _ _ _ _ H2 E2) as [K1 K2]. auto.
Qed.

Lemma grun_inv b : forall ops l l' log, ginv l -> honest b l ops -> grun b l ops = Some (l', log) ->
  ginv l' /\ forall f, f <> 0 -> cnt l' f = fold_left (count_event f) log (cnt l f).
Proof.
  induction ops as [|o ops IH]; intros l l' log G H R; cbn [grun honest] in *.
  - inversion R; subst. auto.
  - destruct H as [H1 H2]. destruct (gstep b l o) as [[l1 e1]|] eqn:E; [|discriminate]. cbn [fst snd] in R.
    destruct (grun b l1 ops) as [[l2 log1]|] eqn:E2; [|discriminate]. cbn [fst snd] in R. inversion R; subst.
    pose proof (gstep_case _ _ _ _ _ G E) as S.
    pose proof (step_ginv _ _ _ _ _ G H1 S) as G1.
    destruct (IH _ _ _ G1 H2 E2) as [K1 K2]. split; [exact K1|]. intros f Hf. rewrite (K2 f Hf).
    cbn [fold_left]. rewrite (step_cnt _ _ _ _ _ f G H1 S Hf). reflexivity.
Qed.

Lemma grun_balance b ops l log : honest b [] ops -> grun b [] ops = Some (l, log) ->
  ginv l /\ forall f, f <> 0 -> cnt l f = balance f log.
Proof. intros H R. exact (grun_inv b ops [] l log ginv_nil H R). Qed.

(** the first event of a run *)
Lemma grun_first b ops l e log l'' : ginv l -> honest b l ops -> grun b l ops = Some (l'', e :: log) ->
  exists o ops' l', ops = o :: ops' /\ answer_ok l o /\ step_case b l o l' e /\ ginv l' /\
    honest b l' ops' /\ grun b l' ops' = Some (l'', log).
Proof.
  intros G H R. destruct ops as [|o ops]; cbn [grun] in R; [discriminate|]. cbn [honest] in H.
  destruct H as [H1 H2]. destruct (gstep b l o) as [[l1 e1]|] eqn:E; [|discriminate]. cbn [fst snd] in R.
  destruct (grun b l1 ops) as [[l2 log1]|] eqn:E2; [|discriminate]. cbn [fst snd] in R. inversion R; subst.
  pose proof (gstep_case _ _ _ _ _ G E) as S.
  exists o, ops, l1. split; [reflexivity|]. split; [exact H1|]. split; [exact S|].
  split; [exact (step_ginv _ _ _ _ _ G H1 S)|auto].
Qed.

(** at a point of a history *)
Lemma at_event b ops l pre e post : honest b [] ops -> grun b [] ops = Some (l, pre ++ e :: post) ->
  exists l0 o l1 ops', ginv l0 /\ (forall f, f <> 0 -> cnt l0 f = balance f pre) /\ answer_ok l0 o /\
    step_case b l0 o l1 e /\ ginv l1 /\ (forall f, f <> 0 -> cnt l1 f = balance f (pre ++ [e])) /\
    honest b l1 ops' /\ grun b l1 ops' = Some (l, post).
Proof.
  intros H R. destruct (grun_split _ _ _ _ _ _ R) as (o1&o2&l0&->&R1&R2).
  destruct (honest_split _ _ _ _ _ _ H R1) as [H1 H2].
  destruct (grun_balance _ _ _ _ H1 R1) as [G C].
  destruct (grun_first _ _ _ _ _ _ G H2 R2) as (o&ops'&l1&->&A&S&G1&H3&R3).
  exists l0, o, l1, ops'. do 5 (split; [assumption|]). split; [|split; assumption].
  intros f Hf. rewrite (step_cnt _ _ _ _ _ f G A S Hf), (C f Hf). unfold balance. rewrite fold_left_app. reflexivity.
Qed.

(** While it is held, a manager keeps its key. *)
Lemma held_key b f k : f <> 0 -> forall mid ops l l'' c (pre post : list gev), ginv l -> honest b l ops ->
  grun b l ops = Some (l'', mid ++ post) ->
  (forall g, g <> 0 -> cnt l g = balance g pre) -> In c l -> c_pub c = f -> key c = k ->
  held_throughout f pre mid ->
  exists l' ops' c', ginv l' /\ honest b l' ops' /\ grun b l' ops' = Some (l'', post) /\
    In c' l' /\ c_pub c' = f /\ key c' = k.
Proof.
  intros Hf. induction mid as [|e mid IH]; intros ops l l'' c pre post G H R C Hc Hp Hk Hh.
  - exists l, ops, c. do 5 (split; [assumption|]). assumption.
  - cbn [app] in R. destruct (grun_first _ _ _ _ _ _ G H R) as (o&ops'&l1&->&A&S&G1&H3&R3).
    assert (C1 : forall g, g <> 0 -> cnt l1 g = balance g (pre ++ [e])).
    { intros g Hg. rewrite (step_cnt _ _ _ _ _ g G A S Hg), (C g Hg). unfold balance. rewrite fold_left_app. reflexivity. }
    assert (L : 0 < cnt l1 f).
    { rewrite (C1 f Hf). apply (Hh [e] mid). reflexivity. }
    apply (cnt_live _ _ G1) in L. destruct L as (c1&Hc1&Hp1).
    assert (Hk1 : key c1 = k).
    { rewrite <- Hk. symmetry. apply (step_keys _ _ _ _ _ c c1 G A S Hc Hc1). congruence. }
    apply (IH ops' l1 l'' c1 (pre ++ [e]) post); auto.
    intros m1 m2 ->. rewrite <- app_assoc. cbn [app]. apply (Hh (e :: m1) m2). reflexivity.
Qed.

(** after MakeHookMan has answered a non-null manager, it is live with that key *)
Lemma made_live b l raw o i f op l' : ginv l -> answer_ok l op -> step_case b l op l' (Made raw o i f) -> f <> 0 ->
  exists p c, fill raw = Some p /\ In c l' /\ c_pub c = f /\ key_same (key c) (p, o, i).
Proof.
  intros G A S Hf. remember (Made raw o i f) as e eqn:Ee.
  destruct S as [l1 d l2 raw0 p o0 i0 a _ Hl Hfl Hk|raw0 p o0 i0 a _ Hfl Hn Hg Ha|raw0 p o0 i0 a _ Hfl Hn Hg|raw0 o0 i0 a Hb|g Hn|l1 d l2 Hl Hr|l1 d l2 Hl Hr];
    inversion Ee; subst raw0 o0 i0; try congruence.
  - exists p, (set_ref d (c_ref d + 1)). split; [exact Hfl|].
    split; [apply in_or_app; right; left; reflexivity|]. split; [cbn; congruence|exact Hk].
  - exists p, (Ctx 1 p o i f). split; [exact Hfl|]. split; [apply in_or_app; right; left; reflexivity|]. split; [cbn; congruence|]. apply key_same_refl.
Qed.

(** what a request returns when its key is live *)
Lemma made_shared b l raw o i f op l' p c : ginv l -> answer_ok l op -> step_case b l op l' (Made raw o i f) ->
  b <> Linux64 -> fill raw = Some p -> In c l -> key_same (key c) (p, o, i) -> f = c_pub c.
Proof.
  intros G A S Hb Hfl Hc Hk. remember (Made raw o i f) as e eqn:Ee.
  destruct S as [l1 d l2 raw0 p0 o0 i0 a _ Hl Hfl0 Hk0|raw0 p0 o0 i0 a _ Hfl0 Hn Hg Ha|raw0 p0 o0 i0 a _ Hfl0 Hn Hg|raw0 o0 i0 a Hb0|g Hn|l1 d l2 Hl Hr|l1 d l2 Hl Hr];
    inversion Ee; subst raw0 o0 i0; try congruence.
  - rewrite Hfl in Hfl0. inversion Hfl0; subst p0. subst l. f_equal. symmetry.
    apply (distinct_same l1 d l2 c (g_key _ G) Hc). eapply key_same_trans; [exact Hk0|]. apply key_same_sym. exact Hk.
  - rewrite Hfl in Hfl0. inversion Hfl0; subst p0. rewrite Forall_forall in Hn. exfalso. exact (Hn c Hc Hk).
  - rewrite Hfl in Hfl0. inversion Hfl0; subst p0. rewrite Forall_forall in Hn. exfalso. exact (Hn c Hc Hk).
Qed.

