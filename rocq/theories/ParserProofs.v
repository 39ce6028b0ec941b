From Coq Require Import ZArith Bool List String SpecFloat Lia.
From Verif Require Import LimitsModel FloatOrder ParserModel ParserSpec.
Import ListNotations.
Open Scope string_scope.
Open Scope list_scope.

Lemma le_fmin : forall x a b, isnan a = false -> isnan b = false ->
  (fle x (fmin a b) = true <-> fle x a = true /\ fle x b = true).
Proof.
  intros x a b Ha Hb. unfold fmin. destruct (flt b a) eqn:E.
  - split; [|tauto]. intros H. split; [|assumption]. eapply fle_trans; [exact H|]. now apply flt_le.
  - split; [|tauto]. intros H. split; [assumption|]. eapply fle_trans; [exact H|]. now apply flt_not_le.
Qed.
Lemma fmax_le : forall x a b, isnan a = false -> isnan b = false ->
  (fle (fmax a b) x = true <-> fle a x = true /\ fle b x = true).
Proof.
  intros x a b Ha Hb. unfold fmax. destruct (flt a b) eqn:E.
  - split; [|tauto]. intros H. split; [|assumption]. eapply fle_trans; [|exact H]. now apply flt_le.
  - split; [|tauto]. intros H. split; [assumption|]. eapply fle_trans; [|exact H]. now apply flt_not_le.
Qed.
Lemma fmin_nn : forall a b, isnan a = false -> isnan b = false -> isnan (fmin a b) = false.
Proof. intros. unfold fmin. destruct (flt b a); assumption. Qed.
Lemma fmax_nn : forall a b, isnan a = false -> isnan b = false -> isnan (fmax a b) = false.
Proof. intros. unfold fmax. destruct (flt a b); assumption. Qed.
Lemma fopp_nn : forall a, isnan (fopp a) = isnan a. Proof. intros. apply k_opp. Qed.
Lemma le_abs : forall a, isnan a = false -> fle a (fabs a) = true.
Proof.
  intros a H. apply fle_lex. rewrite fabs_nn. split; [assumption|]. split; [assumption|].
  unfold lex. destruct a as [s|s| |s m e]; try destruct s; cbn; try discriminate; lia.
Qed.
Lemma fabs_opp : forall a, fabs (fopp a) = fabs a. Proof. intros [s|s| |s m e]; reflexivity. Qed.
Lemma fabs_max : forall p, double p -> fle (fabs p) DBL_MAX = true.
Proof.
  intros p [H1 H2]. destruct p as [s|s| |s m e]; try exact H2.
  - destruct s; [|exact H2]. cbn in H1. discriminate.
  - destruct s; [|exact H2]. apply fle_opp in H1. exact H1.
Qed.

(** the tags of other kinds leave a kind alone *)
Lemma neq_kind : forall a k : string, a <> k -> String.eqb a k = false. Proof. intros. now apply String.eqb_neq. Qed.
Lemma eq_kind : forall k : string, String.eqb k k = true. Proof. apply String.eqb_refl. Qed.
Lemma custom_pos : forall i l, hp (set_custom i l) = hp l /\ minp (set_custom i l) = minp l /\ maxp (set_custom i l) = maxp l /\
  hv (set_custom i l) = hv l /\ maxv (set_custom i l) = maxv l /\ he (set_custom i l) = he l /\ maxe (set_custom i l) = maxe l.
Proof.
  intros. unfold set_custom. destruct (String.eqb (i_name i) "acceleration").
  - destruct (retrieve i nan nan) as [[d a]|]; [|tauto].
    destruct (isfinite d), (isfinite a); cbn; tauto.
  - destruct (String.eqb (i_name i) "jerk"); [|tauto]. destruct (i_max i); try tauto;
    destruct (retrieve i nan nan) as [[d a]|]; try tauto; destruct (isfinite a); cbn; tauto.
Qed.
Lemma tag_other_pos : forall i l, i_name i <> "position" -> hp (tag l i) = hp l /\ minp (tag l i) = minp l /\ maxp (tag l i) = maxp l.
Proof.
  intros i l H. unfold tag. rewrite (neq_kind _ _ H). destruct (custom_pos i l) as (? & ? & ? & ? & ? & ? & ?).
  destruct (String.eqb (i_name i) "velocity"); [|destruct (String.eqb (i_name i) "effort"); [|auto]].
  - destruct (if i_enable i then _ else _) as [[? ?]|]; cbn; auto.
  - destruct (if i_enable i then _ else _) as [[? ?]|]; cbn; auto.
Qed.
Lemma tag_other_vel : forall i l, i_name i <> "velocity" -> hv (tag l i) = hv l /\ maxv (tag l i) = maxv l.
Proof.
  intros i l H. unfold tag. rewrite (neq_kind _ _ H). destruct (custom_pos i l) as (? & ? & ? & ? & ? & ? & ?).
  destruct (String.eqb (i_name i) "position"); [|destruct (String.eqb (i_name i) "effort"); [|auto]].
  - destruct (if i_enable i then _ else _) as [[? ?]|]; cbn; auto.
  - destruct (if i_enable i then _ else _) as [[? ?]|]; cbn; auto.
Qed.
Lemma tag_other_eff : forall i l, i_name i <> "effort" -> he (tag l i) = he l /\ maxe (tag l i) = maxe l.
Proof.
  intros i l H. unfold tag. rewrite (neq_kind _ _ H). destruct (custom_pos i l) as (? & ? & ? & ? & ? & ? & ?).
  destruct (String.eqb (i_name i) "position"); [|destruct (String.eqb (i_name i) "velocity"); [|auto]].
  - destruct (if i_enable i then _ else _) as [[? ?]|]; cbn; auto.
  - destruct (if i_enable i then _ else _) as [[? ?]|]; cbn; auto.
Qed.

Definition tidy_itf (i : itf) : Prop := tidy_text (i_min i) /\ tidy_text (i_max i).
Definition pos_nn (l : lim) : Prop := hp l = true -> isnan (minp l) = false /\ isnan (maxp l) = false.

Lemma tag_pos : forall i l, i_name i = "position" -> i_enable i = true -> tidy_itf i -> pos_nn l ->
  pos_nn (tag l i) /\ forall p, double p -> (pos_allowed (tag l i) p <-> pos_allowed l p /\ tag_range i p).
Proof.
  intros i l Hn He [T1 T2] Hl. unfold tag. rewrite Hn, eq_kind, He, !andb_true_r.
  set (lo := if hp l then minp l else fopp DBL_MAX). set (hi := if hp l then maxp l else DBL_MAX).
  assert (Nlo : isnan lo = false) by (unfold lo; destruct (hp l) eqn:E; [now apply Hl|reflexivity]).
  assert (Nhi : isnan hi = false) by (unfold hi; destruct (hp l) eqn:E; [now apply Hl|reflexivity]).
  assert (Hal : forall p, double p -> (pos_allowed l p <-> fle lo p = true /\ fle p hi = true)).
  { intros p [D1 D2]. unfold pos_allowed, lo, hi. destruct (hp l); split; intros; auto; discriminate. }
  unfold retrieve, tag_range, readable.
  destruct (i_min i) as [| |a] eqn:Ei, (i_max i) as [| |b] eqn:Ea; cbv iota beta;
    try (pose proof (T1 a eq_refl) as Na); try (pose proof (T2 b eq_refl) as Nb).
  (* nothing given, or unreadable *)
  1,2,4,5,6,8: split; [unfold pos_nn; cbn; intros _; auto|]; intros p D; specialize (Hal p D);
    (split; [intros H; split; [|intros [G1 G2]; try congruence; split; intros; discriminate];
             intros E; assert (E' := E); unfold pos_allowed in H; cbn in H; specialize (H E); unfold lo, hi in H; rewrite E in H; exact H
            |intros [H _] E; cbn in *; unfold lo, hi; rewrite E; exact (H E)]).
  all: split; [unfold pos_nn; cbn; intros _; auto using fmin_nn, fmax_nn|]; intros p D; rewrite (Hal p D);
    unfold pos_allowed; cbn.
  - rewrite fmax_le, le_fmin by assumption. split.
    + intros H. specialize (H eq_refl) as ([H1 H2] & [H3 H4]). split; [auto|]. intros _. split; intros ? E; [discriminate|injection E as <-; auto].
    + intros [[H1 H2] H3] _. destruct H3 as [_ H3]; [split; discriminate|]. specialize (H3 b eq_refl). auto.
  - rewrite fmax_le, le_fmin by assumption. split.
    + intros H. specialize (H eq_refl) as ([H1 H2] & [H3 H4]). split; [auto|]. intros _. split; intros ? E; [injection E as <-; auto|discriminate].
    + intros [[H1 H2] H3] _. destruct H3 as [H3 _]; [split; discriminate|]. specialize (H3 a eq_refl). auto.
  - rewrite fmax_le, le_fmin by assumption. split.
    + intros H. specialize (H eq_refl) as ([H1 H2] & [H3 H4]). split; [auto|]. intros _. split; intros ? E; injection E as <-; auto.
    + intros [[H1 H2] H3] _. destruct H3 as [H3 H4]; [split; discriminate|].
      specialize (H3 a eq_refl). specialize (H4 b eq_refl). auto.
Qed.
Lemma fold_pos : forall is l, (forall i, In i is -> i_name i = "position" -> i_enable i = true) ->
  (forall i, In i is -> tidy_itf i) -> pos_nn l -> forall p, double p ->
  (pos_allowed (fold_left tag is l) p <-> pos_allowed l p /\ forall i, In i is -> i_name i = "position" -> tag_range i p).
Proof.
  induction is as [|i is IH]; intros l He Ht Hl p D; cbn [fold_left].
  - split; [intros H; split; [exact H|intros i []]|tauto].
  - destruct (string_dec (i_name i) "position") as [E|E].
    + destruct (tag_pos i l E (He i (or_introl eq_refl) E) (Ht i (or_introl eq_refl)) Hl) as [N Q].
      rewrite IH; [|intros j Hj; apply He; now right|intros j Hj; apply Ht; now right|exact N|exact D].
      rewrite (Q p D). split.
      * intros [[H1 H2] H3]. split; [exact H1|]. intros j [<-|Hj] Ej; auto.
      * intros [H1 H2]. split; [split; [exact H1|apply H2; [now left|assumption]]|]. intros j Hj. apply H2. now right.
    + destruct (tag_other_pos i l E) as (E1 & E2 & E3).
      rewrite IH; [|intros j Hj; apply He; now right|intros j Hj; apply Ht; now right
                   |unfold pos_nn; rewrite E1, E2, E3; exact Hl|exact D].
      unfold pos_allowed. rewrite E1, E2, E3. split; intros [H1 H2]; (split; [exact H1|]).
      * intros j [<-|Hj] Ej; [contradiction|auto].
      * intros j Hj. apply H2. now right.
Qed.

(** velocity and effort are handled alike *)
Definition mag (h : lim -> bool) (m : lim -> F) (l : lim) (v : F) : Prop := h l = true -> fle (fabs v) (m l) = true.
Definition mag_nn (h : lim -> bool) (m : lim -> F) (l : lim) : Prop := h l = true -> isnan (m l) = false.
Definition mag_tag (h : lim -> bool) (m : lim -> F) (kind : string) : Prop :=
  (forall i l, i_name i <> kind -> h (tag l i) = h l /\ m (tag l i) = m l) /\
  (forall i l, i_name i = kind -> i_enable i = true ->
    let b := if h l then m l else DBL_MAX in
    match retrieve i (fopp b) b with
    | Some (mn, mx) => h (tag l i) = true /\ m (tag l i) = fmin (fmin (fabs mn) mx) b
    | None => h (tag l i) = h l /\ m (tag l i) = b
    end) /\
  (forall i l, i_name i = kind -> i_enable i = false -> h (tag l i) = false).
Lemma vel_mag : mag_tag hv maxv "velocity".
Proof.
  split; [exact tag_other_vel|]. split; intros i l Hn He; unfold tag; rewrite Hn; cbn [String.eqb Ascii.eqb Bool.eqb]; rewrite He.
  - set (b := if hv l then maxv l else DBL_MAX). destruct (retrieve i (fopp b) b) as [[mn mx]|]; cbn; rewrite ?andb_true_r; auto.
  - cbn. apply andb_false_r.
Qed.
Lemma eff_mag : mag_tag he maxe "effort".
Proof.
  split; [exact tag_other_eff|]. split; intros i l Hn He; unfold tag; rewrite Hn; cbn [String.eqb Ascii.eqb Bool.eqb]; rewrite He.
  - set (b := if he l then maxe l else DBL_MAX). destruct (retrieve i (fopp b) b) as [[mn mx]|]; cbn; rewrite ?andb_true_r; auto.
  - cbn. apply andb_false_r.
Qed.
Section Mag.
Context (h : lim -> bool) (m : lim -> F) (kind : string) (MT : mag_tag h m kind).
Lemma tag_mag : forall i l, i_name i = kind -> i_enable i = true -> tidy_itf i -> mag_nn h m l ->
  mag_nn h m (tag l i) /\ forall v, double v -> (mag h m (tag l i) v <-> mag h m l v /\ tag_magnitude i v).
Proof.
  intros i l Hn He [T1 T2] Hl. destruct MT as (_ & Q & _). specialize (Q i l Hn He). cbv zeta in Q.
  set (b := if h l then m l else DBL_MAX) in *.
  assert (Nb : isnan b = false) by (unfold b; destruct (h l) eqn:E; [now apply Hl|reflexivity]).
  assert (Hal : forall v, double v -> (mag h m l v <-> fle (fabs v) b = true)).
  { intros v D. unfold mag, b. destruct (h l); split; intros; auto; try discriminate. now apply fabs_max. }
  assert (Hb : forall x, fle x b = true -> fle x (fabs b) = true).
  { intros x H. eapply fle_trans; [exact H|now apply le_abs]. }
  unfold retrieve, tag_magnitude, readable in *.
  destruct (i_min i) as [| |a] eqn:Ei, (i_max i) as [| |c] eqn:Ea; cbv iota beta in *;
    try (pose proof (T1 a eq_refl) as Na); try (pose proof (T2 c eq_refl) as Nc); destruct Q as [Q1 Q2].
  1,2,4,5,6,8: split; [unfold mag_nn; intros _; rewrite Q2; auto|]; intros v D; specialize (Hal v D);
    (split; [intros H; split; [|intros [G1 G2]; try congruence; split; intros; discriminate];
             apply Hal; destruct (h l) eqn:E; [rewrite <- Q2; apply H; congruence|unfold b; now apply fabs_max]
            |intros [H _] _; rewrite Q2; apply Hal; exact H]).
  all: split; [unfold mag_nn; intros _; rewrite Q2; auto using fmin_nn, fabs_nn|].
  all: try (apply fmin_nn; [apply fmin_nn|]; rewrite ?fabs_nn, ?fopp_nn; assumption).
  all: intros v D; rewrite (Hal v D); unfold mag; rewrite Q1, Q2;
    rewrite ?le_fmin by (rewrite ?fabs_nn, ?fopp_nn; try assumption; apply fmin_nn; rewrite ?fabs_nn, ?fopp_nn; assumption);
    rewrite ?fabs_opp.
  - split.
    + intros H. specialize (H eq_refl) as ([H1 H2] & H3). split; [auto|]. intros _. split; intros ? E; [discriminate|injection E as <-; auto].
    + intros [H1 H3] _. destruct H3 as [_ H3]; [split; discriminate|]. specialize (H3 c eq_refl). auto.
  - split.
    + intros H. specialize (H eq_refl) as ([H1 H2] & H3). split; [auto|]. intros _. split; intros ? E; [injection E as <-; auto|discriminate].
    + intros [H1 H3] _. destruct H3 as [H3 _]; [split; discriminate|]. specialize (H3 a eq_refl). auto.
  - split.
    + intros H. specialize (H eq_refl) as ([H1 H2] & H3). split; [auto|]. intros _. split; intros ? E; injection E as <-; auto.
    + intros [H1 H3] _. destruct H3 as [H3 H4]; [split; discriminate|].
      specialize (H3 a eq_refl). specialize (H4 c eq_refl). auto.
Qed.
Lemma fold_mag : forall is l, (forall i, In i is -> i_name i = kind -> i_enable i = true) ->
  (forall i, In i is -> tidy_itf i) -> mag_nn h m l -> forall v, double v ->
  (mag h m (fold_left tag is l) v <-> mag h m l v /\ forall i, In i is -> i_name i = kind -> tag_magnitude i v).
Proof.
  induction is as [|i is IH]; intros l He Ht Hl v D; cbn [fold_left].
  - split; [intros H; split; [exact H|intros i []]|tauto].
  - destruct (string_dec (i_name i) kind) as [E|E].
    + destruct (tag_mag i l E (He i (or_introl eq_refl) E) (Ht i (or_introl eq_refl)) Hl) as [N Q].
      rewrite IH; [|intros j Hj; apply He; now right|intros j Hj; apply Ht; now right|exact N|exact D].
      rewrite (Q v D). split.
      * intros [[H1 H2] H3]. split; [exact H1|]. intros j [<-|Hj] Ej; auto.
      * intros [H1 H2]. split; [split; [exact H1|apply H2; [now left|assumption]]|]. intros j Hj. apply H2. now right.
    + destruct (proj1 MT i l E) as (E1 & E2).
      rewrite IH; [|intros j Hj; apply He; now right|intros j Hj; apply Ht; now right
                   |unfold mag_nn; rewrite E1, E2; exact Hl|exact D].
      unfold mag. rewrite E1, E2. split; intros [H1 H2]; (split; [exact H1|]).
      * intros j [<-|Hj] Ej; [contradiction|auto].
      * intros j Hj. apply H2. now right.
Qed.
Lemma fold_mag_off : forall is l, (forall i, In i is -> i_name i = kind -> i_enable i = false) ->
  (h l = false \/ exists i, In i is /\ i_name i = kind) -> h (fold_left tag is l) = false.
Proof.
  induction is as [|i is IH]; intros l He Hl; cbn [fold_left]; [destruct Hl as [?|(i & [] & _)]; assumption|].
  apply IH; [intros j Hj; apply He; now right|].
  destruct (string_dec (i_name i) kind) as [E|E].
  - left. apply MT; auto. apply He; auto. now left.
  - rewrite (proj1 (proj1 MT i l E)). destruct Hl as [Hl|(j & [<-|Hj] & Ej)]; [auto|contradiction|right; eauto].
Qed.
End Mag.
Lemma fold_pos_off : forall is l, (forall i, In i is -> i_name i = "position" -> i_enable i = false) ->
  (hp l = false \/ exists i, In i is /\ i_name i = "position") -> hp (fold_left tag is l) = false.
Proof.
  induction is as [|i is IH]; intros l He Hl; cbn [fold_left]; [destruct Hl as [?|(i & [] & _)]; assumption|].
  apply IH; [intros j Hj; apply He; now right|].
  destruct (string_dec (i_name i) "position") as [E|E].
  - left. unfold tag. rewrite E, eq_kind, (He i (or_introl eq_refl) E). cbn. apply andb_false_r.
  - rewrite (proj1 (tag_other_pos i l E)). destruct Hl as [Hl|(j & [<-|Hj] & Ej)]; [auto|contradiction|right; eauto].
Qed.

(** from the joint to its commands *)
Lemma inherit_id : forall j, j_enable j = true -> inherit j = j.
Proof.
  intros [e c] E. cbn in E. subst e. unfold inherit. cbn. f_equal. rewrite <- (map_id c) at 2. apply map_ext.
  intros [n a b e]. cbn. now rewrite andb_true_r.
Qed.
Lemma joint_limits_on : forall u j, j_enable j = true -> joint_limits u j = fold_left tag (j_cmds j) (getJointLimits u).
Proof. intros u j E. unfold joint_limits. rewrite (inherit_id j E). unfold update_interface_limits. rewrite E. reflexivity. Qed.

Lemma main_position : forall u j, tidy u j -> enabled j "position" -> forall p, double p ->
  (pos_allowed (joint_limits u j) p <->
   urdf_pos u p /\ forall i, In i (j_cmds j) -> i_name i = "position" -> tag_range i p).
Proof.
  intros u j [T1 T2] [E1 E2] p D. rewrite (joint_limits_on u j E1).
  rewrite fold_pos; [|exact E2|exact T2| |exact D].
  - apply and_iff_compat_r. unfold pos_allowed, urdf_pos, getJointLimits.
    destruct (u_limits u) as [x|]; [|split; [intros _ x; discriminate|cbn; discriminate]].
    cbn. destruct (u_type u); cbn; split; intros H; try discriminate; intros; try (apply H; auto; fail).
    + injection H0 as <-. auto.
    + injection H0 as <-. auto.
    + destruct H1; discriminate.
    + destruct H1; discriminate.
  - unfold pos_nn, getJointLimits. destruct (u_limits u) as [x|]; [|discriminate]. cbn.
    destruct (T1 x eq_refl) as (? & ? & ? & ?). destruct (u_type u); cbn; auto; discriminate.
Qed.
Lemma main_velocity : forall u j, tidy u j -> enabled j "velocity" -> forall v, double v ->
  (vel_allowed (joint_limits u j) v <->
   urdf_vel u v /\ forall i, In i (j_cmds j) -> i_name i = "velocity" -> tag_magnitude i v).
Proof.
  intros u j [T1 T2] [E1 E2] v D. rewrite (joint_limits_on u j E1).
  change (vel_allowed (fold_left tag (j_cmds j) (getJointLimits u)) v) with (mag hv maxv (fold_left tag (j_cmds j) (getJointLimits u)) v).
  rewrite (fold_mag hv maxv "velocity" vel_mag); [|exact E2|exact T2| |exact D].
  - apply and_iff_compat_r. unfold mag, urdf_vel, getJointLimits.
    destruct (u_limits u) as [x|]; [|split; [intros _ x; discriminate|cbn; discriminate]]. cbn.
    split; [intros H y E; injection E as <-; auto|intros H _; apply H; reflexivity].
  - unfold mag_nn, getJointLimits. destruct (u_limits u) as [x|]; [|discriminate]. cbn.
    destruct (T1 x eq_refl) as (? & ? & ? & ?). rewrite fabs_nn. auto.
Qed.
Lemma main_effort : forall u j, tidy u j -> enabled j "effort" -> forall v, double v ->
  (eff_allowed (joint_limits u j) v <->
   urdf_eff u v /\ forall i, In i (j_cmds j) -> i_name i = "effort" -> tag_magnitude i v).
Proof.
  intros u j [T1 T2] [E1 E2] v D. rewrite (joint_limits_on u j E1).
  change (eff_allowed (fold_left tag (j_cmds j) (getJointLimits u)) v) with (mag he maxe (fold_left tag (j_cmds j) (getJointLimits u)) v).
  rewrite (fold_mag he maxe "effort" eff_mag); [|exact E2|exact T2| |exact D].
  - apply and_iff_compat_r. unfold mag, urdf_eff, getJointLimits.
    destruct (u_limits u) as [x|]; [|split; [intros _ x; discriminate|cbn; discriminate]]. cbn.
    split; [intros H y E; injection E as <-; auto|intros H _; apply H; reflexivity].
  - unfold mag_nn, getJointLimits. destruct (u_limits u) as [x|]; [|discriminate]. cbn.
    destruct (T1 x eq_refl) as (? & ? & ? & ?). rewrite fabs_nn. auto.
Qed.
Lemma main_joint_off : forall u j, j_enable j = false ->
  let l := joint_limits u j in hp l = false /\ hv l = false /\ ha l = false /\ hd l = false /\ hj l = false /\ he l = false.
Proof. intros u j E. unfold joint_limits, update_interface_limits, inherit. cbn [j_enable]. rewrite E. cbn. tauto. Qed.
Definition off (j : joint) (kind : string) : Prop :=
  given j kind /\ forall i, In i (j_cmds j) -> i_name i = kind -> i_enable i = false.
Lemma custom_same : forall i l, i_name i <> "jerk" -> hj (tag l i) = hj l.
Proof.
  intros i l N. unfold tag. destruct (String.eqb (i_name i) "position"); [destruct (if i_enable i then _ else _) as [[? ?]|]; reflexivity|].
  destruct (String.eqb (i_name i) "velocity"); [destruct (if i_enable i then _ else _) as [[? ?]|]; reflexivity|].
  destruct (String.eqb (i_name i) "effort"); [destruct (if i_enable i then _ else _) as [[? ?]|]; reflexivity|].
  unfold set_custom. destruct (String.eqb (i_name i) "acceleration").
  - destruct (retrieve i nan nan) as [[d a]|]; [|reflexivity]. destruct (isfinite d), (isfinite a); reflexivity.
  - destruct (String.eqb (i_name i) "jerk") eqn:E; [apply String.eqb_eq in E; contradiction|reflexivity].
Qed.
Lemma jerk_off : forall i l, i_name i = "jerk" -> i_enable i = false -> hj l = false -> hj (tag l i) = false.
Proof.
  intros i l E O H. unfold tag. rewrite E. cbn [String.eqb Ascii.eqb]. unfold set_custom. rewrite E. cbn. rewrite O.
  destruct (i_max i); [assumption| |]; (destruct (retrieve i nan nan) as [[d m]|]; [|assumption]; destruct (isfinite m); [reflexivity|assumption]).
Qed.
Lemma acc_same : forall i l, i_name i <> "acceleration" -> ha (tag l i) = ha l /\ hd (tag l i) = hd l.
Proof.
  intros i l N. unfold tag. destruct (String.eqb (i_name i) "position"); [destruct (if i_enable i then _ else _) as [[? ?]|]; split; reflexivity|].
  destruct (String.eqb (i_name i) "velocity"); [destruct (if i_enable i then _ else _) as [[? ?]|]; split; reflexivity|].
  destruct (String.eqb (i_name i) "effort"); [destruct (if i_enable i then _ else _) as [[? ?]|]; split; reflexivity|].
  unfold set_custom. destruct (String.eqb (i_name i) "acceleration") eqn:E; [apply String.eqb_eq in E; contradiction|].
  destruct (String.eqb (i_name i) "jerk"); [|split; reflexivity].
  destruct (i_max i); [split; reflexivity| |]; (destruct (retrieve i nan nan) as [[d m]|]; [|split; reflexivity]; destruct (isfinite m); split; reflexivity).
Qed.
Lemma acc_off : forall i l, i_name i = "acceleration" -> i_enable i = false -> ha l = false /\ hd l = false -> ha (tag l i) = false /\ hd (tag l i) = false.
Proof.
  intros i l E O [H1 H2]. unfold tag. rewrite E. cbn [String.eqb Ascii.eqb]. unfold set_custom. rewrite E. cbn. rewrite O.
  destruct (retrieve i nan nan) as [[d a]|]; [|auto]. destruct (isfinite d), (isfinite a); cbn; auto.
Qed.
Lemma fold_jerk_off : forall is l, (forall i, In i is -> i_name i = "jerk" -> i_enable i = false) -> hj l = false -> hj (fold_left tag is l) = false.
Proof.
  induction is as [|i is IH]; intros l He Hl; [exact Hl|]. cbn [fold_left]. apply IH; [intros j Hj; apply He; now right|].
  destruct (string_dec (i_name i) "jerk") as [E|E]; [apply jerk_off; [exact E|apply He; [now left|exact E]|exact Hl]|]. rewrite custom_same; assumption.
Qed.
Lemma fold_acc_off : forall is l, (forall i, In i is -> i_name i = "acceleration" -> i_enable i = false) -> ha l = false /\ hd l = false ->
  ha (fold_left tag is l) = false /\ hd (fold_left tag is l) = false.
Proof.
  induction is as [|i is IH]; intros l He Hl; [exact Hl|]. cbn [fold_left]. apply IH; [intros j Hj; apply He; now right|].
  destruct (string_dec (i_name i) "acceleration") as [E|E]; [apply acc_off; [exact E|apply He; [now left|exact E]|exact Hl]|].
  destruct (acc_same i l E) as [-> ->]. exact Hl.
Qed.
Lemma main_kind_off : forall u j,
  (off j "position" -> hp (joint_limits u j) = false) /\ (off j "velocity" -> hv (joint_limits u j) = false) /\
  (off j "effort" -> he (joint_limits u j) = false) /\ (off j "jerk" -> hj (joint_limits u j) = false) /\
  (off j "acceleration" -> ha (joint_limits u j) = false /\ hd (joint_limits u j) = false).
Proof.
  intros u j. destruct (j_enable j) eqn:E.
  - rewrite (joint_limits_on u j E).
    split; [intros [G O]; apply fold_pos_off; [exact O|right; exact G]|].
    split; [intros [G O]; apply (fold_mag_off hv maxv "velocity" vel_mag); [exact O|right; exact G]|].
    split; [intros [G O]; apply (fold_mag_off he maxe "effort" eff_mag); [exact O|right; exact G]|].
    split; intros [G O].
    + apply fold_jerk_off; [exact O|]. unfold getJointLimits. destruct (u_limits u); reflexivity.
    + apply fold_acc_off; [exact O|]. unfold getJointLimits. destruct (u_limits u); split; reflexivity.
  - destruct (main_joint_off u j E) as (? & ? & ? & ? & ? & ?). auto 10.
Qed.
(** soft limits lie within the hard ones *)
Lemma main_soft : forall u j s, tidy u j -> enabled j "position" ->
  (forall f, u_safety u = Some f -> isnan (f_lower f) = false /\ isnan (f_upper f) = false) ->
  soft_limits u j = Some s -> exists f, u_safety u = Some f /\ s_kp s = f_kp f /\ s_kv s = f_kv f /\
  forall p, double p -> (fle (s_minp s) p = true /\ fle p (s_maxp s) = true <->
    pos_allowed (joint_limits u j) p /\ fle (f_lower f) p = true /\ fle p (f_upper f) = true).
Proof.
  intros u j s T En Hf Hs. unfold soft_limits in Hs. destruct (u_safety u) as [f|] eqn:Ef; [|discriminate].
  injection Hs as <-. exists f. cbn [s_kp s_kv s_minp s_maxp]. split; [reflexivity|]. split; [reflexivity|]. split; [reflexivity|].
  intros p D. destruct (Hf f eq_refl) as [N1 N2]. unfold pos_allowed.
  assert (NN : pos_nn (joint_limits u j)).
  { clear Hf Ef. destruct T as [T1 T2], En as [E1 E2]. rewrite (joint_limits_on u j E1).
    assert (N0 : pos_nn (getJointLimits u)).
    { unfold pos_nn, getJointLimits. destruct (u_limits u) as [x|]; [|discriminate]. cbn.
      destruct (T1 x eq_refl) as (? & ? & ? & ?). destruct (u_type u); cbn; auto; discriminate. }
    revert N0 E2 T2. generalize (getJointLimits u). generalize (j_cmds j).
    induction l as [|i is IH]; intros l0 N0 E2 T2; cbn [fold_left]; [exact N0|].
    apply IH; [|intros k Hk; apply E2; now right|intros k Hk; apply T2; now right].
    destruct (string_dec (i_name i) "position") as [E|E].
    - apply tag_pos; auto; [apply E2; auto; now left|apply T2; now left].
    - destruct (tag_other_pos i l0 E) as (Q1 & Q2 & Q3). unfold pos_nn. rewrite Q1, Q2, Q3. exact N0. }
  destruct (hp (joint_limits u j)) eqn:E.
  - destruct (NN E). rewrite fmax_le, le_fmin by assumption. split.
    + intros [[? ?] [? ?]]. split; [intros _; split; assumption|auto].
    + intros [H1 [H2 H3]]. specialize (H1 eq_refl) as [? ?]. auto.
  - split; [intros H; split; [discriminate|exact H]|tauto].
Qed.
(** acceleration and jerk: not in the URDF, given by the only tag of that name *)
Definition accs (l : lim) := (ha l, hd l, maxa l, maxd l).
Definition jerks (l : lim) := (hj l, maxj l).
Lemma tag_other_acc : forall i l, i_name i <> "acceleration" -> accs (tag l i) = accs l.
Proof.
  intros i l H. unfold tag, set_custom. rewrite (neq_kind _ _ H).
  destruct (String.eqb (i_name i) "position"); [destruct (if i_enable i then _ else _) as [[? ?]|]; reflexivity|].
  destruct (String.eqb (i_name i) "velocity"); [destruct (if i_enable i then _ else _) as [[? ?]|]; reflexivity|].
  destruct (String.eqb (i_name i) "effort"); [destruct (if i_enable i then _ else _) as [[? ?]|]; reflexivity|].
  destruct (String.eqb (i_name i) "jerk"); [|reflexivity].
  destruct (i_max i); try reflexivity; destruct (retrieve i nan nan) as [[? m]|]; try reflexivity; destruct (isfinite m); reflexivity.
Qed.
Lemma tag_other_jerk : forall i l, i_name i <> "jerk" -> jerks (tag l i) = jerks l.
Proof.
  intros i l H. unfold tag, set_custom. rewrite (neq_kind _ _ H).
  destruct (String.eqb (i_name i) "position"); [destruct (if i_enable i then _ else _) as [[? ?]|]; reflexivity|].
  destruct (String.eqb (i_name i) "velocity"); [destruct (if i_enable i then _ else _) as [[? ?]|]; reflexivity|].
  destruct (String.eqb (i_name i) "effort"); [destruct (if i_enable i then _ else _) as [[? ?]|]; reflexivity|].
  destruct (String.eqb (i_name i) "acceleration"); [|reflexivity].
  destruct (retrieve i nan nan) as [[d a]|]; [|reflexivity]. destruct (isfinite d), (isfinite a); reflexivity.
Qed.
Lemma fold_other : forall (X : Type) (f : lim -> X) k, (forall i l, i_name i <> k -> f (tag l i) = f l) ->
  forall is l, (forall i, In i is -> i_name i <> k) -> f (fold_left tag is l) = f l.
Proof.
  intros X f k H. induction is as [|i is IH]; intros l Hn; cbn [fold_left]; [reflexivity|].
  rewrite IH by (intros j Hj; apply Hn; now right). apply H, Hn. now left.
Qed.
Definition only_tag (j : joint) (i : itf) : Prop :=
  exists a b, j_cmds j = a ++ i :: b /\ (forall k, In k (a ++ b) -> i_name k <> i_name i).
Lemma main_acceleration : forall u j i, j_enable j = true -> only_tag j i -> i_name i = "acceleration" -> i_enable i = true ->
  accs (joint_limits u j) =
  match i_min i, i_max i with
  | Number d, Number a => if isfinite d then if isfinite a then (true, true, a, fabs d) else (false, true, fabs d, fabs d)
                          else if isfinite a then (true, false, a, fabs a) else (false, false, nan, nan)
  | Number d, Absent => if isfinite d then (false, true, fabs d, fabs d) else (false, false, nan, nan)
  | Absent, Number a => if isfinite a then (true, false, a, fabs a) else (false, false, nan, nan)
  | _, _ => (false, false, nan, nan)
  end.
Proof.
  intros u j i E (a & b & Ec & Ho) Hn He. rewrite (joint_limits_on u j E), Ec, fold_left_app. cbn [fold_left].
  rewrite (fold_other _ accs "acceleration" tag_other_acc) by (intros k Hk; rewrite <- Hn; apply Ho, in_or_app; now right).
  pose proof (fold_other _ accs "acceleration" tag_other_acc a (getJointLimits u)
    (fun k Hk => eq_ind _ (fun s => i_name k <> s) (Ho k (in_or_app _ _ _ (or_introl Hk))) _ Hn)) as F.
  set (l := fold_left tag a (getJointLimits u)) in *. clearbody l.
  assert (A : accs (getJointLimits u) = (false, false, nan, nan)) by (unfold getJointLimits; destruct (u_limits u); reflexivity).
  rewrite A in F. clear A. unfold accs in F. injection F as F1 F2 F3 F4.
  unfold tag, set_custom, accs, retrieve. rewrite Hn, He. cbn [String.eqb Ascii.eqb Bool.eqb].
  destruct (i_min i) as [| |d], (i_max i) as [| |c]; rewrite ?F1, ?F2, ?F3, ?F4; try reflexivity.
  - cbn [isfinite nan]. destruct (isfinite c) eqn:Ef; cbn; rewrite ?F1, ?F2, ?F3, ?F4; reflexivity.
  - cbn [isfinite nan]. destruct (isfinite d) eqn:Ef; cbn; rewrite ?F1, ?F2, ?F3, ?F4; [|reflexivity].
    destruct d; reflexivity.
  - destruct (isfinite d) eqn:Ef, (isfinite c) eqn:Eg; cbn; rewrite ?F1, ?F2, ?F3, ?F4; try reflexivity.
    + destruct d; try discriminate; reflexivity.
    + destruct d; reflexivity.
Qed.
Lemma main_jerk : forall u j i, j_enable j = true -> only_tag j i -> i_name i = "jerk" -> i_enable i = true ->
  jerks (joint_limits u j) =
  match i_min i, i_max i with
  | Invalid, _ => (false, nan)
  | _, Number m => if isfinite m then (true, fabs m) else (false, nan)
  | _, _ => (false, nan)
  end.
Proof.
  intros u j i E (a & b & Ec & Ho) Hn He. rewrite (joint_limits_on u j E), Ec, fold_left_app. cbn [fold_left].
  rewrite (fold_other _ jerks "jerk" tag_other_jerk) by (intros k Hk; rewrite <- Hn; apply Ho, in_or_app; now right).
  pose proof (fold_other _ jerks "jerk" tag_other_jerk a (getJointLimits u)
    (fun k Hk => eq_ind _ (fun s => i_name k <> s) (Ho k (in_or_app _ _ _ (or_introl Hk))) _ Hn)) as F.
  set (l := fold_left tag a (getJointLimits u)) in *. clearbody l.
  assert (A : jerks (getJointLimits u) = (false, nan)) by (unfold getJointLimits; destruct (u_limits u); reflexivity).
  rewrite A in F. clear A. unfold jerks in F. injection F as F1 F2.
  unfold tag, set_custom, jerks, retrieve. rewrite Hn, He. cbn [String.eqb Ascii.eqb Bool.eqb].
  destruct (i_min i) as [| |d], (i_max i) as [| |c]; rewrite ?F1, ?F2; try reflexivity;
  destruct (isfinite c); cbn; rewrite ?F1, ?F2; reflexivity.
Qed.
