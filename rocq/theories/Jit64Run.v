(** Running a piece of code inside a larger one. *)
From Coq Require Import List ZArith Bool Lia.
From Verif Require Import TrampModel ProtoModel GenModel Asm64Model Asm64Spec Asm64Proofs Mach64 Mach64Proofs Jit64Model Jit64Spec Jit64Base Jit64PubProofs.
Import ListNotations.
Local Open Scope Z_scope.
Notation length := List.length.

Lemma xs_pc l : forall s s' p, forallb straight l = true -> xs l s = Some s' -> xs l (set_pc s p) = Some (set_pc s' p).
Proof.
  induction l as [|a l IH]; intros s s' p Hs H.
  - cbn [xs] in *. inversion H. reflexivity.
  - cbn [forallb] in Hs. apply andb_prop in Hs. destruct Hs as [Ha Hl]. cbn [xs] in *. rewrite exec1_pc by exact Ha.
    destruct (exec1 (meaning a) s) as [s1|]; [|discriminate H]. cbn [option_map']. apply IH; assumption.
Qed.
Lemma set_pc_pc s p q : set_pc (set_pc s p) q = set_pc s q.
Proof. reflexivity. Qed.

Section Run.
Variables (base : Z) (env : nat -> Z -> st -> st).

(** from the beginning of [l] (behind [pre]) to its end, whatever follows *)
Definition T (pre l : list asm) (c c' : st * list event) : Prop := forall post,
  reaches base env (emit_all (pre ++ l ++ post)) (set_pc (fst c) (off pre), snd c) (set_pc (fst c') (off (pre ++ l)), snd c').

Lemma T_nil pre c : T pre [] c c.
Proof. intros post. rewrite app_nil_r. apply r_refl. Qed.
Lemma T_app pre l1 l2 c c1 c2 : T pre l1 c c1 -> T (pre ++ l1) l2 c1 c2 -> T pre (l1 ++ l2) c c2.
Proof.
  intros H1 H2 post. eapply reaches_trans.
  - specialize (H1 (l2 ++ post)). rewrite <- app_assoc. exact H1.
  - specialize (H2 post). rewrite <- !app_assoc in H2. rewrite <- app_assoc. exact H2.
Qed.
Lemma T_block pre l s s' tr : Forall asm_ok l -> forallb straight l = true -> xs l s = Some s' -> T pre l (s, tr) (s', tr).
Proof.
  intros Ha Hs H post. cbn [fst snd].
  pose proof (run_block base env l pre post (set_pc s (off pre)) (set_pc s' (off pre)) tr Ha Hs eq_refl (xs_pc l s s' (off pre) Hs H)) as K.
  rewrite set_pc_pc in K. exact K.
Qed.
Lemma T_cons pre a l c c1 c2 : T pre [a] c c1 -> T (pre ++ [a]) l c1 c2 -> T pre (a :: l) c c2.
Proof. intros H1 H2. change (a :: l) with ([a] ++ l). eapply T_app; eassumption. Qed.

Definition ev_of (pre : list asm) (r : Z) (s : st) (n : nat) : event :=
  let s1 := call_in base (set_pc s (off pre)) (off (pre ++ [ACall r])) in Ev (rg s r) s1 (env n (rg s r) s1).
Lemma T_call pre r s tr : reg_ok r ->
  T pre [ACall r] (s, tr) (set_rg (e_out (ev_of pre r s (length tr))) RSP (w64 (rg s RSP - 8 + 8)), tr ++ [ev_of pre r s (length tr)]).
Proof.
  intros Hr post. cbn [fst snd].
  pose proof (run_call base env r pre post (set_pc s (off pre)) tr Hr eq_refl) as K. cbv zeta in K.
  exact K.
Qed.

(** jumps over [body] *)
Lemma T_taken pre a c d body s tr : cond_jump a = Some (c, d) -> int32_ok d -> d = off body -> holds s c = true ->
  T pre (a :: body) (s, tr) (s, tr).
Proof.
  intros Hc Hd Hb Hh post. cbn [fst snd].
  pose proof (run_jcc base env a c d pre (body ++ post) (set_pc s (off pre)) tr Hc Hd eq_refl) as K.
  replace (holds (set_pc s (off pre)) c) with true in K by (symmetry; destruct c; exact Hh).
  rewrite set_pc_pc in K. replace (off (pre ++ a :: body)) with (off (pre ++ [a]) + d); [exact K|].
  change (a :: body) with ([a] ++ body). rewrite app_assoc, (off_app (pre ++ [a])). lia.
Qed.
Lemma T_not_taken pre a c d s tr : cond_jump a = Some (c, d) -> int32_ok d -> holds s c = false ->
  T pre [a] (s, tr) (s, tr).
Proof.
  intros Hc Hd Hh post. cbn [fst snd].
  pose proof (run_jcc base env a c d pre post (set_pc s (off pre)) tr Hc Hd eq_refl) as K.
  replace (holds (set_pc s (off pre)) c) with false in K by (symmetry; destruct c; exact Hh).
  rewrite set_pc_pc in K. exact K.
Qed.
Lemma T_jump pre d body s tr : int32_ok d -> d = off body -> T pre (AJump d :: body) (s, tr) (s, tr).
Proof.
  intros Hd Hb post. cbn [fst snd].
  pose proof (run_jump base env d pre (body ++ post) (set_pc s (off pre)) tr Hd eq_refl) as K.
  rewrite set_pc_pc in K. replace (off (pre ++ AJump d :: body)) with (off (pre ++ [AJump d]) + d); [exact K|].
  change (AJump d :: body) with ([AJump d] ++ body). rewrite app_assoc, (off_app (pre ++ [AJump d])). lia.
Qed.

(** back to the beginning of [l] *)
Lemma back_jump pre l d post s tr : int32_ok d -> d = - off (l ++ [AJump d]) ->
  reaches base env (emit_all (pre ++ l ++ AJump d :: post)) (set_pc s (off (pre ++ l)), tr) (set_pc s (off pre), tr).
Proof.
  intros Hd Hb.
  pose proof (run_jump base env d (pre ++ l) post (set_pc s (off (pre ++ l))) tr Hd eq_refl) as K.
  rewrite set_pc_pc, <- !app_assoc in K. replace (off pre) with (off (pre ++ l ++ [AJump d]) + d); [exact K|].
  rewrite (off_app pre). lia.
Qed.
Lemma back_jcc pre l a c d post s tr : cond_jump a = Some (c, d) -> int32_ok d -> d = - off (l ++ [a]) -> holds s c = true ->
  reaches base env (emit_all (pre ++ l ++ a :: post)) (set_pc s (off (pre ++ l)), tr) (set_pc s (off pre), tr).
Proof.
  intros Hc Hd Hb Hh.
  pose proof (run_jcc base env a c d (pre ++ l) post (set_pc s (off (pre ++ l))) tr Hc Hd eq_refl) as K.
  replace (holds (set_pc s (off (pre ++ l))) c) with true in K by (symmetry; destruct c; exact Hh).
  rewrite set_pc_pc, <- !app_assoc in K. replace (off pre) with (off (pre ++ l ++ [a]) + d); [exact K|].
  rewrite (off_app pre). lia.
Qed.
End Run.
