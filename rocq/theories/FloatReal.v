(** FloatReal.v -- the operations of LimitsModel.v are the correctly rounded ones: sign and
    monotonicity facts, through Flocq's theorems (these use the axioms of the reals). *)
From Coq Require Import ZArith Bool SpecFloat Reals Lra.
From Flocq Require Import Core.Zaux Core.Raux Core.Defs Core.Generic_fmt Core.Round_NE Core.FLT IEEE754.BinarySingleNaN.
From Verif Require Import LimitsModel FloatOrder.
Open Scope R_scope.

(** a 64-bit double (a [spec_float] also has non-canonical inhabitants, which are not doubles) *)
Definition double (x : F) : Prop := valid_binary 53 1024 x = true.

Local Instance Hprec : FLX.Prec_gt_0 53 := eq_refl.
Local Instance Hmax : Prec_lt_emax 53 1024 := eq_refl.
Notation B := (binary_float 53 1024).
Notation bb x H := (@SF2B 53 1024 x H).

Lemma rne_equiv s m l : round_nearest_even m l = choice_mode mode_NE s m l.
Proof. case l; [reflexivity|intro c]. case c; [|reflexivity..]. now simpl; unfold Round.cond_incr; case Z.even. Qed.
Lemma round_aux_equiv sx mx ex lx :
  SpecFloat.binary_round_aux 53 1024 sx mx ex lx = BinarySingleNaN.binary_round_aux 53 1024 mode_NE sx mx ex lx.
Proof.
  unfold SpecFloat.binary_round_aux, BinarySingleNaN.binary_round_aux.
  set (mrse' := shr_fexp _ _ _). case mrse'; intros mrs' e'; simpl. now rewrite (rne_equiv sx).
Qed.
Lemma round_equiv s m e : SpecFloat.binary_round 53 1024 s m e = BinarySingleNaN.binary_round 53 1024 mode_NE s m e.
Proof.
  unfold SpecFloat.binary_round, BinarySingleNaN.binary_round, shl_align_fexp.
  set (mez := shl_align _ _ _); case mez as [mz ez]. apply round_aux_equiv.
Qed.
Lemma normalize_equiv m e szero :
  SpecFloat.binary_normalize 53 1024 m e szero
  = B2SF (BinarySingleNaN.binary_normalize 53 1024 Hprec Hmax mode_NE m e szero).
Proof. case m as [|p|p]; [reflexivity|..]; simpl; rewrite B2SF_SF2B; apply round_equiv. Qed.
Lemma mul_equiv (x y : B) : fmul (B2SF x) (B2SF y) = B2SF (Bmult mode_NE x y).
Proof. destruct x as [sx|sx| |sx mx ex Bx]; destruct y as [sy|sy| |sy my ey By]; [now trivial..|]. simpl. rewrite B2SF_SF2B. apply round_aux_equiv. Qed.
Lemma add_equiv (x y : B) : fadd (B2SF x) (B2SF y) = B2SF (Bplus mode_NE x y).
Proof. destruct x as [sx|sx| |sx mx ex Bx]; destruct y as [sy|sy| |sy my ey By]; [now (trivial || simpl; case Bool.eqb)..|]. apply normalize_equiv. Qed.
Lemma sub_equiv (x y : B) : fsub (B2SF x) (B2SF y) = B2SF (Bminus mode_NE x y).
Proof.
  destruct x as [sx|sx| |sx mx ex Bx]; destruct y as [sy|sy| |sy my ey By]; [now (trivial || simpl; case Bool.eqb)..|].
  simpl. unfold Zminus. rewrite <- cond_Zopp_negb. apply normalize_equiv.
Qed.
Lemma div_equiv (x y : B) : fdiv (B2SF x) (B2SF y) = B2SF (Bdiv mode_NE x y).
Proof.
  destruct x as [sx|sx| |sx mx ex Bx]; destruct y as [sy|sy| |sy my ey By]; [now (trivial || simpl; case Bool.eqb)..|].
  simpl. rewrite B2SF_SF2B. set (melz := SFdiv_core_binary _ _ _ _ _ _). case melz as [[mz ez] lz]. apply round_aux_equiv.
Qed.
Lemma to_B x : double x -> exists b : B, B2SF b = x.
Proof. intros H. exists (SF2B x H). apply B2SF_SF2B. Qed.
Lemma B_double (b : B) : double (B2SF b).
Proof. apply valid_binary_B2SF. Qed.
Lemma d_add x y : double x -> double y -> double (fadd x y).
Proof. intros Hx Hy. destruct (to_B _ Hx) as [a <-]. destruct (to_B _ Hy) as [b <-]. rewrite add_equiv. apply B_double. Qed.
Lemma d_sub x y : double x -> double y -> double (fsub x y).
Proof. intros Hx Hy. destruct (to_B _ Hx) as [a <-]. destruct (to_B _ Hy) as [b <-]. rewrite sub_equiv. apply B_double. Qed.
Lemma d_mul x y : double x -> double y -> double (fmul x y).
Proof. intros Hx Hy. destruct (to_B _ Hx) as [a <-]. destruct (to_B _ Hy) as [b <-]. rewrite mul_equiv. apply B_double. Qed.
Lemma d_div x y : double x -> double y -> double (fdiv x y).
Proof. intros Hx Hy. destruct (to_B _ Hx) as [a <-]. destruct (to_B _ Hy) as [b <-]. rewrite div_equiv. apply B_double. Qed.
Lemma d_opp x : double x -> double (fopp x).
Proof. destruct x; exact (fun H => H). Qed.
Lemma d_abs x : double x -> double (fabs x).
Proof. destruct x; exact (fun H => H). Qed.
Lemma d_min x y : double x -> double y -> double (fmin x y).
Proof. unfold fmin. destruct (flt y x); auto. Qed.
Lemma d_max x y : double x -> double y -> double (fmax x y).
Proof. unfold fmax. destruct (flt x y); auto. Qed.

(** ------------------------------------------------------------ exact values *)
Notation val := (SF2R radix2).
Definition rnd (v : R) : R := round radix2 (SpecFloat.fexp 53 1024) (round_mode mode_NE) v.
Local Instance rnd_valid : Valid_rnd (round_mode mode_NE) := valid_rnd_round_mode _.
Local Instance exp_valid : Valid_exp (SpecFloat.fexp 53 1024) := fexp_correct 53 1024 Hprec.
Lemma rnd_le a b : a <= b -> rnd a <= rnd b.
Proof. apply round_le; auto with typeclass_instances. Qed.
Lemma rnd_0 : rnd 0 = 0.
Proof. apply round_0; auto with typeclass_instances. Qed.
(** [f] is the double that the exact result [v] is rounded to *)
Definition approx (f : F) (v : R) : Prop :=
  double f /\
  ((isfinite f = true /\ val f = rnd v) \/
   (f = inf /\ bpow radix2 1024 <= rnd v) \/ (f = ninf /\ rnd v <= - bpow radix2 1024)).

Lemma sign_val (x : B) : if Bsign x then B2R x <= 0 else 0 <= B2R x.
Proof.
  destruct x as [[]|[]| |[] m e H]; cbn; try lra.
  - apply Float_prop.F2R_le_0. cbn. Lia.lia.
  - apply Float_prop.F2R_ge_0. cbn. Lia.lia.
Qed.
Lemma fin_B (x : B) : isfinite (B2SF x) = is_finite x.
Proof. destruct x; reflexivity. Qed.
Lemma val_B (x : B) : val (B2SF x) = B2R x.
Proof. destruct x; reflexivity. Qed.
Lemma overflow_case (f : B) v s : B2SF f = binary_overflow 53 1024 mode_NE s ->
  (if s then v <= 0 else 0 <= v) -> ~ (Rabs (rnd v) < bpow radix2 1024) -> approx (B2SF f) v.
Proof.
  intros E S N. split; [apply B_double|]. right. rewrite E. change (binary_overflow 53 1024 mode_NE s) with (S754_infinity s).
  assert (bpow radix2 1024 <= Rabs (rnd v)) by lra. destruct s.
  - right. split; [reflexivity|]. apply rnd_le in S. rewrite rnd_0 in S. rewrite Rabs_left1 in H by exact S. lra.
  - left. split; [reflexivity|]. apply rnd_le in S. rewrite rnd_0 in S. rewrite Rabs_pos_eq in H by exact S. lra.
Qed.
Ltac ov := match goal with |- context [Rlt_bool ?a ?b] => destruct (Rlt_bool_spec a b) as [O|O] end.
Lemma add_approx x y : double x -> double y -> isfinite x = true -> isfinite y = true -> approx (fadd x y) (val x + val y).
Proof.
  intros Hx Hy. destruct (to_B _ Hx) as [a <-]. destruct (to_B _ Hy) as [b <-]. rewrite !fin_B, !val_B, add_equiv. intros Fa Fb.
  generalize (Bplus_correct 53 1024 _ _ mode_NE a b Fa Fb). ov.
  - intros (E & Fi & _). split; [apply B_double|]. left. rewrite fin_B, val_B. auto.
  - intros (E & S). apply (overflow_case _ _ _ E); [|unfold rnd; lra].
    pose proof (sign_val a). pose proof (sign_val b). rewrite <- S in *. destruct (Bsign a); lra.
Qed.
Lemma sub_approx x y : double x -> double y -> isfinite x = true -> isfinite y = true -> approx (fsub x y) (val x - val y).
Proof.
  intros Hx Hy. destruct (to_B _ Hx) as [a <-]. destruct (to_B _ Hy) as [b <-]. rewrite !fin_B, !val_B, sub_equiv. intros Fa Fb.
  generalize (Bminus_correct 53 1024 _ _ mode_NE a b Fa Fb). ov.
  - intros (E & Fi & _). split; [apply B_double|]. left. rewrite fin_B, val_B. auto.
  - intros (E & S). apply (overflow_case _ _ _ E); [|unfold rnd; lra].
    pose proof (sign_val a). pose proof (sign_val b). destruct (Bsign a), (Bsign b); try discriminate; lra.
Qed.
Lemma mul_sign (s1 s2 : bool) a b : (if s1 then a <= 0 else 0 <= a) -> (if s2 then b <= 0 else 0 <= b) ->
  if xorb s1 s2 then a * b <= 0 else 0 <= a * b.
Proof. destruct s1, s2; cbn; intros; nra. Qed.
Lemma mul_approx x y : double x -> double y -> isfinite x = true -> isfinite y = true -> approx (fmul x y) (val x * val y).
Proof.
  intros Hx Hy. destruct (to_B _ Hx) as [a <-]. destruct (to_B _ Hy) as [b <-]. rewrite !fin_B, !val_B, mul_equiv. intros Fa Fb.
  generalize (Bmult_correct 53 1024 _ _ mode_NE a b). ov.
  - rewrite Fa, Fb. intros (E & Fi & _). split; [apply B_double|]. left. rewrite fin_B, val_B. auto.
  - intros E. apply (overflow_case _ _ _ E); [|unfold rnd; lra]. apply mul_sign; apply sign_val.
Qed.
Lemma div_approx x y : double x -> double y -> isfinite x = true -> val y <> 0 -> approx (fdiv x y) (val x / val y).
Proof.
  intros Hx Hy. destruct (to_B _ Hx) as [a <-]. destruct (to_B _ Hy) as [b <-]. rewrite !fin_B, !val_B, div_equiv. intros Fa Nb.
  generalize (Bdiv_correct 53 1024 _ _ mode_NE a b Nb). ov.
  - rewrite Fa. intros (E & Fi & _). split; [apply B_double|]. left. rewrite fin_B, val_B. auto.
  - intros E. apply (overflow_case _ _ _ E); [|unfold rnd; lra]. unfold Rdiv. apply mul_sign; [apply sign_val|].
    pose proof (sign_val b). destruct (Bsign b).
    + assert (B2R b < 0) by lra. apply Rinv_lt_0_compat in H0. lra.
    + assert (0 < B2R b) by lra. apply Rinv_0_lt_compat in H0. lra.
Qed.

(** the order on finite doubles is that of their values *)
Lemma fle_val x y : double x -> double y -> isfinite x = true -> isfinite y = true -> (fle x y = true <-> val x <= val y).
Proof.
  intros Hx Hy. destruct (to_B _ Hx) as [a <-]. destruct (to_B _ Hy) as [b <-]. rewrite !fin_B, !val_B. intros Fa Fb.
  unfold fle, SFleb. change (SFcompare (B2SF a) (B2SF b)) with (Bcompare a b). rewrite (Bcompare_correct _ _ a b Fa Fb).
  destruct (Rcompare_spec (B2R a) (B2R b)); split; intros; try lra; try discriminate; reflexivity.
Qed.
Lemma flt_val x y : double x -> double y -> isfinite x = true -> isfinite y = true -> (flt x y = true <-> val x < val y).
Proof.
  intros Hx Hy. destruct (to_B _ Hx) as [a <-]. destruct (to_B _ Hy) as [b <-]. rewrite !fin_B, !val_B. intros Fa Fb.
  unfold flt, SFltb. change (SFcompare (B2SF a) (B2SF b)) with (Bcompare a b). rewrite (Bcompare_correct _ _ a b Fa Fb).
  destruct (Rcompare_spec (B2R a) (B2R b)); split; intros; try lra; try discriminate; reflexivity.
Qed.
Lemma fin_lt_max x : double x -> isfinite x = true -> Rabs (val x) < bpow radix2 1024.
Proof. intros Hx. destruct (to_B _ Hx) as [a <-]. rewrite val_B. intros _. apply abs_B2R_lt_emax. Qed.
Lemma fle_inf x : isnan x = false -> fle x inf = true.
Proof. destruct x as [[]|[]| |[] m e]; try reflexivity; discriminate. Qed.
Lemma ninf_le x : isnan x = false -> fle ninf x = true.
Proof. destruct x as [[]|[]| |[] m e]; try reflexivity; discriminate. Qed.
Lemma approx_nn f v : approx f v -> isnan f = false.
Proof. intros (_ & [[H _]|[[-> _]|[-> _]]]); [destruct f; [reflexivity..|discriminate|reflexivity]|reflexivity..]. Qed.
(** rounding is monotone *)
Lemma approx_le f1 v1 f2 v2 : approx f1 v1 -> approx f2 v2 -> v1 <= v2 -> fle f1 f2 = true.
Proof.
  intros A1 A2 L. pose proof (approx_nn _ _ A1) as N1. pose proof (approx_nn _ _ A2) as N2. apply rnd_le in L.
  destruct A1 as (D1 & [[F1 E1]|[[-> O1]|[-> O1]]]); destruct A2 as (D2 & [[F2 E2]|[[-> O2]|[-> O2]]]);
    try (apply fle_inf; exact N1); try (apply ninf_le; exact N2); try reflexivity.
  - apply fle_val; auto. lra.
  - exfalso. pose proof (fin_lt_max _ D1 F1). rewrite E1 in H. apply Rabs_def2 in H. lra.
  - exfalso. pose proof (fin_lt_max _ D2 F2). rewrite E2 in H. apply Rabs_def2 in H. lra.
  - exfalso. pose proof (bpow_gt_0 radix2 1024). lra.
Qed.
(** a double is its own rounding *)
Lemma approx_self x : double x -> isfinite x = true -> approx x (val x).
Proof.
  intros Hx Fx. split; [exact Hx|]. left. split; [exact Fx|]. symmetry. destruct (to_B _ Hx) as [a <-]. rewrite val_B.
  apply round_generic; [auto with typeclass_instances|apply generic_format_B2R].
Qed.
Lemma approx_zero : approx fzero 0.
Proof. apply (approx_self fzero); reflexivity. Qed.

(** ------------------------------------------------------------ the facts used about the limiters *)
Lemma sub_nonpos x y : double x -> double y -> isfinite x = true -> isfinite y = true -> fle x y = true -> fle (fsub x y) fzero = true.
Proof. intros Dx Dy Fx Fy L. apply (approx_le _ _ _ _ (sub_approx x y Dx Dy Fx Fy) approx_zero). apply fle_val in L; auto. lra. Qed.
Lemma sub_nonneg x y : double x -> double y -> isfinite x = true -> isfinite y = true -> fle y x = true -> fle fzero (fsub x y) = true.
Proof. intros Dx Dy Fx Fy L. apply (approx_le _ _ _ _ approx_zero (sub_approx x y Dx Dy Fx Fy)). apply fle_val in L; auto. lra. Qed.
Lemma div_nonpos x y : double x -> double y -> isfinite x = true -> isfinite y = true -> fle x fzero = true -> flt fzero y = true -> fle (fdiv x y) fzero = true.
Proof.
  intros Dx Dy Fx Fy L P. apply flt_val in P; auto; [|reflexivity]. cbn in P. apply fle_val in L; auto; [|reflexivity]. cbn in L.
  apply (approx_le _ _ _ _ (div_approx x y Dx Dy Fx ltac:(lra)) approx_zero).
  unfold Rdiv. apply Rinv_0_lt_compat in P. nra.
Qed.
Lemma div_nonneg x y : double x -> double y -> isfinite x = true -> isfinite y = true -> fle fzero x = true -> flt fzero y = true -> fle fzero (fdiv x y) = true.
Proof.
  intros Dx Dy Fx Fy L P. apply flt_val in P; auto; [|reflexivity]. cbn in P. apply fle_val in L; auto; [|reflexivity]. cbn in L.
  apply (approx_le _ _ _ _ approx_zero (div_approx x y Dx Dy Fx ltac:(lra))).
  unfold Rdiv. apply Rinv_0_lt_compat in P. nra.
Qed.
Lemma mul_nonneg x y : double x -> double y -> isfinite x = true -> isfinite y = true -> fle fzero x = true -> fle fzero y = true -> fle fzero (fmul x y) = true.
Proof.
  intros Dx Dy Fx Fy L P. apply fle_val in P; auto; [|reflexivity]. cbn in P. apply fle_val in L; auto; [|reflexivity]. cbn in L.
  apply (approx_le _ _ _ _ approx_zero (mul_approx x y Dx Dy Fx Fy)). nra.
Qed.
Lemma inf_nonneg_sub x d : isfinite x = true -> isfinite d = false -> isnan d = false -> fle fzero d = true -> fsub x d = ninf /\ fadd x d = inf.
Proof. destruct d as [[]|[]| |[] m e]; cbn; try discriminate. destruct x as [[]|[]| |[] m e]; cbn; try discriminate; auto. Qed.
Lemma sub_le_self x d : double x -> double d -> isfinite x = true -> fle fzero d = true -> fle (fsub x d) x = true.
Proof.
  intros Dx Dd Fx L. destruct (isfinite d) eqn:Fd.
  - apply (approx_le _ _ _ _ (sub_approx x d Dx Dd Fx Fd) (approx_self x Dx Fx)). apply fle_val in L; auto; [|reflexivity]. cbn in L. lra.
  - destruct (inf_nonneg_sub x d Fx Fd (proj2 (fle_nn _ _ L)) L) as [-> _]. apply ninf_le. apply fin_nn; exact Fx.
Qed.
Lemma self_le_add x d : double x -> double d -> isfinite x = true -> fle fzero d = true -> fle x (fadd x d) = true.
Proof.
  intros Dx Dd Fx L. destruct (isfinite d) eqn:Fd.
  - apply (approx_le _ _ _ _ (approx_self x Dx Fx) (add_approx x d Dx Dd Fx Fd)). apply fle_val in L; auto; [|reflexivity]. cbn in L. lra.
  - destruct (inf_nonneg_sub x d Fx Fd (proj2 (fle_nn _ _ L)) L) as [_ ->]. apply fle_inf. apply fin_nn; exact Fx.
Qed.
