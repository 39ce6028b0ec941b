(** FloatOrder.v -- the order on doubles, by structure (no real numbers, no axioms). *)
From Coq Require Import ZArith Bool List SpecFloat Lia.
From Verif Require Import LimitsModel.
Import ListNotations.
Open Scope Z_scope.

(** a position in the order: class, exponent, mantissa *)
Definition k1 (a : F) : Z := match a with S754_nan => 0 | S754_infinity true => -2 | S754_infinity false => 2
  | S754_zero _ => 0 | S754_finite true _ _ => -1 | S754_finite false _ _ => 1 end.
Definition k2 (a : F) : Z := match a with S754_finite true _ e => - e | S754_finite false _ e => e | _ => 0 end.
Definition k3 (a : F) : Z := match a with S754_finite true m _ => - Zpos m | S754_finite false m _ => Zpos m | _ => 0 end.
Definition lex (a b : F) : Prop := k1 a < k1 b \/ (k1 a = k1 b /\ (k2 a < k2 b \/ (k2 a = k2 b /\ k3 a < k3 b))).

Ltac crunch :=
  repeat match goal with
  | |- context [Z.compare ?a ?b] => destruct (Z.compare_spec a b)
  | |- context [Pos.compare_cont Eq ?a ?b] => change (Pos.compare_cont Eq a b) with (Pos.compare a b); destruct (Pos.compare_spec a b)
  end; cbn [CompOpp]; split; intros; repeat match goal with H : _ /\ _ |- _ => destruct H end; try discriminate; try (repeat split; lia); try lia; auto.
Lemma flt_lex a b : flt a b = true <-> isnan a = false /\ isnan b = false /\ lex a b.
Proof.
  unfold flt, SFltb, lex. destruct a as [[]|[]| |[] ma ea]; destruct b as [[]|[]| |[] mb eb];
    cbn [SFcompare k1 k2 k3 isnan]; try (split; [intros; repeat split; first [discriminate|lia]|intros (A & B & C); first [discriminate|exfalso; lia|reflexivity]]).
  all: crunch.
Qed.
Lemma fle_lex a b : fle a b = true <-> isnan a = false /\ isnan b = false /\ ~ lex b a.
Proof.
  unfold fle, SFleb, lex. destruct a as [[]|[]| |[] ma ea]; destruct b as [[]|[]| |[] mb eb];
    cbn [SFcompare k1 k2 k3 isnan]; try (split; [intros; repeat split; first [discriminate|lia]|intros (A & B & C); first [discriminate|exfalso; lia|reflexivity]]).
  all: crunch.
Qed.
Lemma flt_false a b : flt a b = false <-> isnan a = true \/ isnan b = true \/ ~ lex a b.
Proof.
  destruct (flt a b) eqn:E.
  - apply flt_lex in E. destruct E as (A & B & C). split; [discriminate|]. rewrite A, B. intros [D|[D|D]]; [discriminate..|contradiction].
  - split; [intros _|reflexivity]. destruct (isnan a) eqn:A; [auto|]. destruct (isnan b) eqn:B; [auto|].
    right. right. intros L. assert (flt a b = true) by (apply flt_lex; auto). congruence.
Qed.
Lemma k_opp a : k1 (fopp a) = - k1 a /\ k2 (fopp a) = - k2 a /\ k3 (fopp a) = - k3 a /\ isnan (fopp a) = isnan a.
Proof. destruct a as [[]|[]| |[] m e]; cbn; auto with zarith. Qed.

(** decide goals about the order *)
Ltac fprep :=
  repeat match goal with
  | H : flt _ _ = true |- _ => apply flt_lex in H; destruct H as (? & ? & H); unfold lex in H
  | H : fle _ _ = true |- _ => apply fle_lex in H; destruct H as (? & ? & H); unfold lex in H
  | H : flt ?a ?b = false |- _ => apply flt_false in H; unfold lex in H
  | H : (_ && _)%bool = true |- _ => apply andb_prop in H; destruct H
  | H : (_ || _)%bool = false |- _ => apply orb_false_iff in H; destruct H
  end.
Ltac fopp1 a := let x := fresh "o" in let K := fresh "Ko" in let E := fresh "Eo" in
  pose proof (k_opp a) as K; remember (fopp a) as x eqn:E; clear E.
Ltac fopps := repeat match goal with
  | |- context [fopp ?a] => fopp1 a
  | H : context [fopp ?a] |- _ => fopp1 a
  end.
Ltac nn := repeat match goal with
  | H : isnan ?a = false |- _ => progress (rewrite H in *)
  end.
(** [ford] solves order goals: goals [flt/fle a b = true|false] or [isnan a = false] *)
Ltac ford :=
  fopps; fprep;
  repeat match goal with H : _ /\ _ |- _ => destruct H end;
  match goal with
  | |- flt _ _ = true => apply flt_lex; unfold lex
  | |- fle _ _ = true => apply fle_lex; unfold lex
  | |- flt _ _ = false => apply flt_false; unfold lex
  | |- _ => idtac end;
  change (k1 fzero) with 0 in *; change (k2 fzero) with 0 in *; change (k3 fzero) with 0 in *;
  change (isnan fzero) with false in *;
  repeat match goal with
  | H : isnan ?a = isnan ?b |- _ => rewrite H in *; clear H
  end;
  repeat match goal with
  | H : _ \/ _ |- _ => destruct H as [H|H]; try congruence
  end;
  repeat match goal with |- _ /\ _ => split end; try congruence; try lia.

Lemma fle_refl a : isnan a = false -> fle a a = true.
Proof. intros. ford. Qed.
Lemma flt_irrefl a : flt a a = false.
Proof. ford. Qed.
Lemma fle_trans a b c : fle a b = true -> fle b c = true -> fle a c = true.
Proof. intros. ford. Qed.
Lemma flt_le a b : flt a b = true -> fle a b = true.
Proof. intros. ford. Qed.
Lemma flt_not_le a b : isnan a = false -> isnan b = false -> flt a b = false -> fle b a = true.
Proof. intros. ford. Qed.
Lemma fle_not_lt a b : fle a b = true -> flt b a = false.
Proof. intros. ford. Qed.
Lemma fle_lt_trans a b c : fle a b = true -> flt b c = true -> flt a c = true.
Proof. intros. ford. Qed.
Lemma flt_le_trans a b c : flt a b = true -> fle b c = true -> flt a c = true.
Proof. intros. ford. Qed.
Lemma fle_nn a b : fle a b = true -> isnan a = false /\ isnan b = false.
Proof. intros. ford; auto. Qed.
Lemma flt_nn a b : flt a b = true -> isnan a = false /\ isnan b = false.
Proof. intros. ford; auto. Qed.
Lemma fle_opp a b : fle a b = true -> fle (fopp b) (fopp a) = true.
Proof. intros. ford. Qed.
Lemma fle_opp0 a : fle fzero a = true -> fle (fopp a) fzero = true /\ fle (fopp a) a = true.
Proof. intros. split; ford. Qed.

Lemma fclamp_within v lo hi v' : isnan v = false -> isnan lo = false -> isnan hi = false ->
  fclamp v lo hi = Some v' -> fle lo v' = true /\ fle v' hi = true.
Proof.
  intros Nv Nl Nh. unfold fclamp. destruct (flt hi lo) eqn:E; [discriminate|].
  destruct (flt v lo) eqn:E1; [intros [= <-]; split; ford|].
  destruct (flt hi v) eqn:E2; intros [= <-]; split; ford.
Qed.
Lemma fclamp_def v lo hi : fle lo hi = true -> exists v', fclamp v lo hi = Some v'.
Proof. intros H. unfold fclamp. rewrite (fle_not_lt _ _ H). eauto. Qed.
(** a clamped value is the value or one of the bounds, and the flag tells which *)
Lemma fclamp_flag v lo hi v' : fclamp v lo hi = Some v' -> (is_limited v lo hi = true <-> v' <> v).
Proof.
  unfold fclamp, is_limited. destruct (flt hi lo) eqn:E; [discriminate|].
  destruct (flt v lo) eqn:E1; cbn [orb].
  - intros [= <-]. split; [intros _ ->; rewrite flt_irrefl in E1; discriminate|auto].
  - destruct (flt hi v) eqn:E2; intros [= <-]; (split; [|congruence]); [intros _ C; rewrite C, flt_irrefl in E2|]; discriminate.
Qed.

(** ------------------------------------------------------------ what is not NaN *)
Definition nonneg (m : shr_record) : Prop := 0 <= shr_m m.
Lemma shr_1_nonneg m : nonneg m -> nonneg (shr_1 m).
Proof. unfold nonneg, shr_1. destruct m as [[|p|p] r s]; cbn; intros; try lia; destruct p; cbn; lia. Qed.
Lemma iter_nonneg n : forall m, nonneg m -> nonneg (iter_pos shr_1 n m).
Proof. induction n; intros m H; cbn [iter_pos]; auto using shr_1_nonneg. Qed.
Lemma shr_fexp_nonneg p em m e l mrs e' : 0 <= m -> shr_fexp p em m e l = (mrs, e') -> nonneg mrs.
Proof.
  unfold shr_fexp, shr. intros H. assert (N : nonneg (shr_record_of_loc m l)) by (destruct l as [|[]]; exact H).
  match goal with |- context [match ?z with Zpos p => _ | _ => _ end] => destruct z end; intros E; injection E as <- _; [exact N|apply iter_nonneg; exact N|exact N].
Qed.
Lemma round_aux_nn p em s m e l : 0 <= m -> isnan (binary_round_aux p em s m e l) = false.
Proof.
  intros H. unfold binary_round_aux. destruct (shr_fexp p em m e l) as [m1 e1] eqn:E1.
  pose proof (shr_fexp_nonneg _ _ _ _ _ _ _ H E1) as N1.
  destruct (shr_fexp p em (round_nearest_even (shr_m m1) (loc_of_shr_record m1)) e1 loc_Exact) as [m2 e2] eqn:E2.
  assert (N2 : nonneg m2).
  { apply (shr_fexp_nonneg _ _ _ _ _ _ _) with (2 := E2). unfold nonneg in N1. unfold round_nearest_even.
    destruct (loc_of_shr_record m1) as [|[]]; try lia. destruct (Z.even (shr_m m1)); lia. }
  unfold nonneg in N2. destruct (shr_m m2); [reflexivity| |lia]. destruct (e2 <=? em - p); reflexivity.
Qed.
Lemma normalize_nn p em m e s : isnan (binary_normalize p em m e s) = false.
Proof.
  unfold binary_normalize, binary_round. destruct m as [|q|q]; [reflexivity| |]; 
    destruct (shl_align q e _) as [mz ez]; apply round_aux_nn; lia.
Qed.
Lemma fin_nn a : isfinite a = true -> isnan a = false.
Proof. destruct a; cbn; congruence. Qed.
Lemma fadd_nn a b : isfinite a = true -> isnan b = false -> isnan (fadd a b) = false.
Proof.
  destruct a as [sa|sa| |sa ma ea]; destruct b as [sb|sb| |sb mb eb]; cbn [isfinite isnan]; try discriminate; intros _ _;
    cbn [fadd SFadd]; try reflexivity; [destruct (eqb sa sb); reflexivity|apply normalize_nn].
Qed.
Lemma fadd_nn' a b : isnan a = false -> isfinite b = true -> isnan (fadd a b) = false.
Proof.
  destruct a as [sa|sa| |sa ma ea]; destruct b as [sb|sb| |sb mb eb]; cbn [isfinite isnan]; try discriminate; intros _ _;
    cbn [fadd SFadd]; try reflexivity; [destruct (eqb sa sb); reflexivity|apply normalize_nn].
Qed.
Lemma fsub_nn a b : isfinite a = true -> isnan b = false -> isnan (fsub a b) = false.
Proof.
  destruct a as [sa|sa| |sa ma ea]; destruct b as [sb|sb| |sb mb eb]; cbn [isfinite isnan]; try discriminate; intros _ _;
    cbn [fsub SFsub]; try reflexivity; [destruct (eqb sa (negb sb)); reflexivity|apply normalize_nn].
Qed.
Lemma fsub_nn' a b : isnan a = false -> isfinite b = true -> isnan (fsub a b) = false.
Proof.
  destruct a as [sa|sa| |sa ma ea]; destruct b as [sb|sb| |sb mb eb]; cbn [isfinite isnan]; try discriminate; intros _ _;
    cbn [fsub SFsub]; try reflexivity; [destruct (eqb sa (negb sb)); reflexivity|apply normalize_nn].
Qed.
Lemma fmul_nn a b : isfinite a = true -> isfinite b = true -> isnan (fmul a b) = false.
Proof.
  destruct a as [sa|sa| |sa ma ea]; destruct b as [sb|sb| |sb mb eb]; cbn [isfinite]; try discriminate; intros _ _;
    cbn [fmul SFmul]; try reflexivity. apply round_aux_nn. lia.
Qed.
Definition nonzero (a : F) : bool := match a with S754_zero _ => false | _ => true end.
Lemma fmul_nn' a b : isnan a = false -> isfinite b = true -> nonzero b = true -> isnan (fmul a b) = false.
Proof.
  destruct a as [sa|sa| |sa ma ea]; destruct b as [sb|sb| |sb mb eb]; cbn [isfinite isnan nonzero]; try discriminate; intros _ _ _;
    cbn [fmul SFmul]; try reflexivity. apply round_aux_nn. lia.
Qed.
Lemma fdiv_nn a b : isnan a = false -> isfinite b = true -> nonzero b = true -> isnan (fdiv a b) = false.
Proof.
  destruct a as [sa|sa| |sa ma ea]; destruct b as [sb|sb| |sb mb eb]; cbn [isfinite isnan nonzero]; try discriminate; intros _ _ _;
    cbn [fdiv SFdiv]; try reflexivity.
  destruct (SFdiv_core_binary 53 1024 (Zpos ma) ea (Zpos mb) eb) as [[mz ez] lz] eqn:E. apply round_aux_nn.
  unfold SFdiv_core_binary in E. 
  match type of E with context [let (q, r) := Z.div_eucl ?m ?n in _] => assert (0 <= m) as P; [|assert (D := Z.div_pos m n P ltac:(lia)); unfold Z.div in D; destruct (Z.div_eucl m n)] end.
  { destruct (_ - _); [lia| |lia]. rewrite Z.shiftl_nonneg. lia. }
  injection E as <- _ _. exact D.
Qed.
Lemma pos_nonzero a : flt fzero a = true -> nonzero a = true.
Proof. destruct a as [[]|[]| |[] m e]; cbn; congruence. Qed.
Lemma fabs_nn a : isnan (fabs a) = isnan a.
Proof. destruct a; reflexivity. Qed.
