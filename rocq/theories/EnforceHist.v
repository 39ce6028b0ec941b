(** EnforceHist.v -- every history of normal operation keeps the commands of a joint inside its limits *)
From Coq Require Import ZArith Bool List String Ascii SpecFloat Lia.
From Verif Require Import Base LimitsModel LimitsSpec FloatOrder FloatReal LimitsProofs LimitsMain LimitsHist EnforceModel EnforceSpec EnforceProofs EnforceMain.
Import ListNotations.
Open Scope string_scope.
Open Scope list_scope.

Lemma flt_nn a b : flt a b = true -> isnan a = false /\ isnan b = false.
Proof. unfold flt, SFltb. destruct a, b; cbn; intros H; try discriminate H; auto. Qed.
Lemma fle_nn a b : fle a b = true -> isnan a = false /\ isnan b = false.
Proof. unfold fle, SFleb. destruct a, b; cbn; intros H; try discriminate H; auto. Qed.
Lemma within_nn a v b : within a v b -> isnan v = false.
Proof. intros [H _]. apply fle_nn in H. apply H. Qed.
Lemma limit1_nn des bs o b v : limit1 des bs = Some (o, b) -> des = Some v -> isnan v = false -> exists v', o = Some v' /\ isnan v' = false.
Proof.
  intros H -> N. unfold limit1 in H. rewrite N in H. destruct (bs v) as [lo hi]. unfold fclamp in H.
  destruct (flt hi lo); [discriminate|]. destruct (flt v lo) eqn:A; [|destruct (flt hi v) eqn:B]; injection H as <- _; eexists; split; try reflexivity; auto.
  - apply flt_nn in A. apply A.
  - apply flt_nn in B. apply B.
Qed.
Lemma app_inj_l p a b : (p ++ a)%string = (p ++ b)%string -> a = b.
Proof. induction p as [|c p IH]; cbn; intros H; [exact H|]. injection H as H. auto. Qed.
Lemma itf_inj_l j a b : itf j a = itf j b -> a = b.
Proof. unfold itf. intros H. apply app_inj_l in H. injection H as H. exact H. Qed.

Section Joint.
Variables (j hw0 : name) (l : jl).
Hypothesis HL : sensible l.

Definition act_ok (a : jd) : Prop := doubles_jd double a /\ inside l (d_pos a) /\ each (fun w => within (fopp (l_maxv l)) w (l_maxv l)) (d_vel a).
Definition des_ok (d : jd) : Prop := doubles_jd double d /\ each (fun p => finite p \/ isnan p = true) (d_pos d).
Record good (w : world) : Prop := {
  gd_lim : exists m, lim_get w hw0 j = Some m /\ m_hard m = l /\ m_soft m = None /\ inv l (m_prev m);
  gd_only : forall hw, lim_get w hw j <> None -> hw = hw0;
  gd_act : act_ok (t_act (data_of w j));
  gd_des : des_ok (t_cmd (data_of w j));
  gd_st : forall n v, measured w n = Some v -> measured_ok l j n v;
  gd_cp : forall p, value w (itf j "position") = Some p -> ordinary p;
  gd_cv : forall v, value w (itf j "velocity") = Some v -> double v;
  gd_per : dt_ok (w_period w) /\ double (w_period w);
  gd_own : forall k c, In k kinds -> aget (w_cmds w) (itf j k) = Some c -> c_prefix c = j;
  gd_bind : binding_ok w }.

(** what is measured, combined with sane older knowledge, is sane *)
Lemma act_read w a : (forall n v, measured w n = Some v -> measured_ok l j n v) -> act_ok a -> act_ok (fill_data (read_state w j) a).
Proof.
  intros G ((D1 & D2) & I & V).
  assert (P : forall x, read_state w j "position" (d_pos a) = Some x -> double x /\ within (l_minp l) x (l_maxp l)).
  { intros x. unfold read_state. destruct (aget (w_states w) (itf j "position")) as [y|] eqn:E.
    - intros [= <-]. destruct (G _ _ E) as (A & B & _). auto.
    - intros E'. split; [apply D1; exact E'|apply I; exact E']. }
  assert (Q : forall x, read_state w j "velocity" (d_vel a) = Some x -> double x /\ within (fopp (l_maxv l)) x (l_maxv l)).
  { intros x. unfold read_state. destruct (aget (w_states w) (itf j "velocity")) as [y|] eqn:E.
    - intros [= <-]. destruct (G _ _ E) as (A & _ & B). auto.
    - intros E'. split; [apply D2; exact E'|apply V; exact E']. }
  split; [split|split]; intros x E; cbn in E; try (apply P in E); try (apply Q in E); tauto.
Qed.
Lemma act_none : act_ok no_data.
Proof. split; [split|split]; intros x E; discriminate E. Qed.
Lemma des_none : des_ok no_data.
Proof. split; [split|]; intros x E; discriminate E. Qed.
Lemma des_read w d : (forall p, value w (itf j "position") = Some p -> ordinary p) -> (forall v, value w (itf j "velocity") = Some v -> double v) ->
  des_ok d -> des_ok (fill_data (read_cmd w j) d).
Proof.
  intros GP GV ((D1 & D2) & O).
  assert (P : forall x, read_cmd w j "position" (d_pos d) = Some x -> ordinary x).
  { intros x. unfold read_cmd. destruct (aget (w_cmds w) (itf j "position")) as [c|] eqn:E.
    - destruct (is_claimed _ _); [|discriminate]. intros [= <-]. apply GP. unfold value. rewrite E. reflexivity.
    - intros E'. split; [apply D1; exact E'|apply O; exact E']. }
  assert (Q : forall x, read_cmd w j "velocity" (d_vel d) = Some x -> double x).
  { intros x. unfold read_cmd. destruct (aget (w_cmds w) (itf j "velocity")) as [c|] eqn:E.
    - destruct (is_claimed _ _); [|discriminate]. intros [= <-]. apply GV. unfold value. rewrite E. reflexivity.
    - intros E'. apply D2; exact E'. }
  split; [split|]; intros x E; cbn in E; try (apply P in E); try (apply Q in E); try exact E; apply E.
Qed.
Lemma make_sane act des dt : act_ok act -> des_ok des -> dt_ok dt -> double dt -> (l_ha l = true -> d_vel act <> None) ->
  sane double l {| y_act := act; y_des := des; y_dt := dt |}.
Proof.
  intros (A1 & A2 & A3) (D1 & D2) T1 T2 V. split; cbn; auto. intros p E. destruct (D2 p E); auto.
Qed.
Lemma known_read w a : velocity_known l j w -> l_ha l = true -> d_vel (fill_data (read_state w j) a) <> None.
Proof. intros K H. cbn. unfold read_state. specialize (K H). unfold measured in K. destruct (aget (w_states w) (itf j "velocity")); [discriminate|contradiction]. Qed.

(** what the limiter does in a sane cycle *)
Lemma sane_result m act des dt p c b : inv l m -> sane double l {| y_act := act; y_des := des; y_dt := dt |} -> enforce l m act des dt = Done p c b ->
  inv l p /\ (forall v, d_pos des = Some v -> ordinary v -> each ordinary (d_pos c)) /\ (d_pos des = None -> d_pos c = None) /\ each double (d_vel c) /\
  forall k v, In k bounded_kinds -> get_kind des k = Some v -> isnan v = false -> exists v', get_kind c k = Some v' /\ isnan v' = false /\ bounded l k v'.
Proof.
  destruct HL as (DL & HV & OKp & OKv & OKa). intros M S E.
  pose proof (step_inv l HV DL OKp OKv OKa m _ M S) as M'. cbn in M'. rewrite E in M'. cbn [memory] in M'.
  destruct (cycle_result l HV DL OKp OKv OKa m _ p c b M S E) as [RP RV]. cbn in RP, RV.
  pose proof E as E0. apply enforce_done in E0; [|apply S]. destruct E0 as (bp & bv & be & ba & bj & K1 & K2 & K3 & _).
  split; [exact M'|]. split; [|split; [|split]].
  - intros v Ev [Dv Ov]. destruct (isnan v) eqn:N.
    + rewrite (nan_limit1 _ _ _ _ K1); [|intros x Ex; congruence]. rewrite Ev. intros x [= <-]. split; auto.
    + destruct (RP v Ev N) as (p' & Ep & Dp & Wp). rewrite Ep. intros x [= <-]. split; [exact Dp|]. left. eapply within_finite; [| |exact Wp]; apply OKp.
  - intros Ev. apply limit1_none in K1. tauto.
  - intros x Ex. destruct (d_vel des) as [v|] eqn:Ev.
    + destruct (isnan v) eqn:N.
      * rewrite (nan_limit1 _ _ _ _ K2) in Ex; [|intros y [= <-]; exact N]. injection Ex as <-. apply (sn_des _ _ _ S). cbn. exact Ev.
      * destruct (RV v eq_refl N) as (v' & E' & D' & _). congruence.
    + apply limit1_none in K2. assert (d_vel c = None) by tauto. congruence.
  - intros k v I G N. cbn in I. destruct I as [<-|[<-|[<-|[]]]]; cbn in G |- *.
    + destruct (RP v G N) as (p' & Ep & Dp & Wp). exists p'. split; [exact Ep|]. split; [eapply within_nn; exact Wp|]. repeat split; intros; try discriminate; apply Wp.
    + destruct (RV v G N) as (p' & Ep & Dp & Wp). exists p'. split; [exact Ep|]. split; [eapply within_nn; exact Wp|]. repeat split; intros; try discriminate; apply Wp.
    + destruct (limit1_nn _ _ _ _ _ K3 G N) as (e' & Ee & Ne). exists e'. split; [exact Ee|]. split; [exact Ne|]. split; [discriminate|]. split; [discriminate|].
      intros _ HE HM. destruct (main_effort l m act des dt p c b v HE HM (proj2 (proj1 (sn_dt _ _ _ S))) E G N) as (e2 & E2 & W2). congruence.
Qed.

(** -------------------------------------------------- things that have nothing to do with the joint *)
Record same_for (P : name -> Prop) (w w' : world) : Prop := {
  sf_st : w_states w' = w_states w; sf_cl : w_claims w' = w_claims w; sf_pe : w_period w' = w_period w;
  sf_lj : forall hw, lim_get w' hw j = lim_get w hw j; sf_da : data_of w' j = data_of w j;
  sf_li : same_lims w w'; sf_cm : same_cmds P w w' }.
Lemma touch_same_for P j' w w' : j' <> j -> touch P j' w w' -> same_for P w w'.
Proof.
  intros N T. split; try apply T.
  - intros hw. apply (to_li _ _ _ _ T). congruence.
  - unfold data_of. rewrite (to_da _ _ _ _ T) by congruence. reflexivity.
  - eapply touch_same_lims. exact T.
  - eapply touch_cmds. exact T.
Qed.
Lemma same_for_good P w w' : same_for P w w' ->
  (forall k x, (k = "position" \/ k = "velocity") -> P (itf j k) -> value w' (itf j k) = Some x -> ordinary x) -> good w -> good w'.
Proof.
  intros S V [A1 A2 A3 A4 A5 A6 A7 A8 A9 A10]. split.
  - destruct A1 as (m & L & X). exists m. rewrite (sf_lj _ _ _ S). auto.
  - intros hw. rewrite (sf_lj _ _ _ S). apply A2.
  - rewrite (sf_da _ _ _ S). exact A3.
  - rewrite (sf_da _ _ _ S). exact A4.
  - unfold measured. rewrite (sf_st _ _ _ S). exact A5.
  - intros p E. pose proof (sf_cm _ _ _ S (itf j "position")) as C. unfold value in E, A6. destruct (aget (w_cmds w) (itf j "position")) as [c|]; [|rewrite C in E; discriminate].
    destruct C as (c' & E' & _ & [X|X]); [rewrite E' in E; cbn in E; apply A6; cbn; congruence|]. apply (V "position" p); auto.
  - intros p E. pose proof (sf_cm _ _ _ S (itf j "velocity")) as C. unfold value in E, A7. destruct (aget (w_cmds w) (itf j "velocity")) as [c|]; [|rewrite C in E; discriminate].
    destruct C as (c' & E' & _ & [X|X]); [rewrite E' in E; cbn in E; apply A7; cbn; congruence|]. apply (V "velocity" p); auto.
  - rewrite (sf_pe _ _ _ S). exact A8.
  - intros k c I E. pose proof (sf_cm _ _ _ S (itf j k)) as C. destruct (aget (w_cmds w) (itf j k)) as [c0|] eqn:G; [|congruence].
    destruct C as (c' & E' & (S1 & _) & _). rewrite E' in E. injection E as <-. rewrite S1. eapply A9; eauto.
  - eapply binding_keep; [apply S|apply S|exact A10].
Qed.
Lemma not_itself (x : name) : (x ++ "x")%string <> x.
Proof. induction x as [|c x IH]; cbn; [discriminate|]. intros H. injection H as H. contradiction. Qed.
Lemma mark_same_for P w n b : same_for P w (mark w n b).
Proof. apply (touch_same_for P (j ++ "x")%string); [apply not_itself|apply touch_mark]. Qed.
Lemma put_same_for (P : name -> Prop) w n v : (aget (w_cmds w) n <> None -> P n) -> same_for P w (put w n v).
Proof. intros H. apply (touch_same_for P (j ++ "x")%string); [apply not_itself|apply touch_put; exact H]. Qed.
Lemma same_for_value P w w' n : same_for P w w' -> ~ P n -> value w' n = value w n.
Proof. intros S. apply same_cmds_value. apply S. Qed.
Lemma mark_value w n b n' : value (mark w n b) n' = value w n'.
Proof. apply (same_for_value (fun _ => False) w); [apply mark_same_for|tauto]. Qed.
Lemma value_put w n v n' : value (put w n v) n' = if String.eqb n' n then option_map (fun _ => v) (value w n') else value w n'.
Proof. unfold value. rewrite aget_put. destruct (String.eqb n' n); [|reflexivity]. destruct (aget (w_cmds w) n'); reflexivity. Qed.
Lemma mark_good w n b : good w -> good (mark w n b).
Proof. apply (same_for_good (fun _ => False)); [apply mark_same_for|intros ? ? ? []]. Qed.
Lemma put_good w n v : good w -> (n = itf j "position" \/ n = itf j "velocity" -> ordinary v) -> good (put w n v).
Proof.
  intros G H. apply (same_for_good (eq n) w); [apply put_same_for; reflexivity| |exact G]. intros k x K -> E. rewrite value_put, String.eqb_refl in E.
  destruct (value w (itf j k)); [|discriminate]. injection E as <-. apply H. destruct K as [->| ->]; auto.
Qed.
Lemma put_good_vel w v : good w -> double v -> good (put w (itf j "velocity") v).
Proof.
  intros G H. assert (N : itf j "position" <> itf j "velocity") by (intros E; apply itf_inj_l in E; discriminate E).
  assert (S : same_for (eq (itf j "velocity")) w (put w (itf j "velocity") v)) by (apply put_same_for; reflexivity).
  destruct G as [A1 A2 A3 A4 A5 A6 A7 A8 A9 A10]. split.
  - destruct A1 as (m & L & X). exists m. rewrite (sf_lj _ _ _ S). auto.
  - intros hw. rewrite (sf_lj _ _ _ S). apply A2.
  - rewrite (sf_da _ _ _ S). exact A3.
  - rewrite (sf_da _ _ _ S). exact A4.
  - unfold measured. rewrite (sf_st _ _ _ S). exact A5.
  - intros p E. rewrite value_put in E. destruct (String.eqb_spec (itf j "position") (itf j "velocity")); [contradiction|auto].
  - intros p E. rewrite value_put, String.eqb_refl in E. destruct (value w (itf j "velocity")); [injection E as <-; exact H|discriminate].
  - rewrite (sf_pe _ _ _ S). exact A8.
  - intros k c I E. pose proof (sf_cm _ _ _ S (itf j k)) as C. destruct (aget (w_cmds w) (itf j k)) as [c0|] eqn:G; [|congruence].
    destruct C as (c' & E' & (S1 & _) & _). rewrite E' in E. injection E as <-. rewrite S1. eapply A9; eauto.
  - eapply binding_keep; [apply S|apply S|exact A10].
Qed.
Lemma put_good_other w n v : good w -> n <> itf j "position" -> n <> itf j "velocity" -> good (put w n v).
Proof. intros G A B. apply put_good; [exact G|]. intros [E|E]; contradiction. Qed.
Lemma lim_good w m p : good w -> lim_get w hw0 j = Some m -> inv l p -> good (lim_set w hw0 j (with_prev m p)).
Proof.
  intros [A1 A2 A3 A4 A5 A6 A7 A8 A9 A10] L I. destruct A1 as (m' & L' & X1 & X2 & _). assert (m' = m) by congruence. subst m'.
  pose proof (touch_lim (fun _ => False) j w hw0 m p L) as T. split; auto.
  - exists (with_prev m p). rewrite lim_get_set, !String.eqb_refl. auto.
  - intros hw N. apply A2. rewrite <- (same_lims_none w _ hw j (touch_same_lims _ _ _ _ T)). exact N.
  - eapply binding_keep; [eapply touch_same_lims; exact T|eapply touch_cmds; exact T|exact A10].
Qed.
Lemma refresh_good w : good w -> good (refresh w j).
Proof.
  intros [A1 A2 A3 A4 A5 A6 A7 A8 A9 A10]. split; auto.
  - rewrite data_refresh. apply act_read; assumption.
  - rewrite data_refresh. apply des_read; assumption.
Qed.

(** -------------------------------------------------- a command for the joint *)
Lemma own_interface w k c : good w -> In k kinds -> aget (w_cmds w) (itf j k) = Some c -> c_prefix c = j /\ c_kind c = k /\ c_bound c = Some hw0.
Proof.
  intros G K E. pose proof (gd_own _ G k c K E) as P. destruct (gd_bind _ G _ _ E) as (B1 & B2 & B3). rewrite P in *.
  assert (C : c_kind c = k) by (apply itf_inj_l in B1; congruence). rewrite C in *. split; [reflexivity|]. split; [reflexivity|].
  destruct (gd_lim _ G) as (m & L & _). destruct (c_bound c) as [hw|].
  - f_equal. apply (gd_only _ G). apply (B2 hw eq_refl).
  - rewrite (B3 eq_refl K hw0) in L. discriminate.
Qed.
Lemma one_kind_ok k v : ordinary v -> des_ok (one_kind k v).
Proof. intros [D O]. split; [split|]; intros x E; cbn in E; destruct (String.eqb k _); try discriminate E; injection E as <-; assumption. Qed.
Lemma get_one k v : In k kinds -> get_kind (one_kind k v) k = Some v.
Proof. intros I. cbn in I. destruct I as [<-|[<-|[<-|[<-|[]]]]]; reflexivity. Qed.
Definition stores (k : name) (v x : F) : Prop :=
  (k = "position" -> ordinary x) /\ (k = "velocity" -> double x) /\ (In k bounded_kinds -> isnan v = false -> bounded l k x).
Lemma on_set_good w k v c w1 x : good w -> velocity_known l j w -> ordinary v -> In k kinds -> aget (w_cmds w) (itf j k) = Some c ->
  on_set w (itf j k) v = (w1, x) -> good w1 /\ (forall y, x = LValue y -> stores k v y).
Proof.
  intros G KN OV K E H. destruct (own_interface w k c G K E) as (P & C & B). unfold on_set in H. rewrite E, B, P, C in H.
  destruct (gd_lim _ G) as (m & L & X1 & X2 & M). rewrite L in H. unfold run_limiter in H. rewrite X2, X1 in H.
  assert (S : sane double l {| y_act := fill_data (read_state w j) no_data; y_des := one_kind k v; y_dt := w_period w |}).
  { apply make_sane; [apply act_read; [exact (gd_st _ G)|apply act_none]|apply one_kind_ok; exact OV|exact (proj1 (gd_per _ G))|exact (proj2 (gd_per _ G))|]. apply known_read. exact KN. }
  destruct (enforce l (m_prev m) _ _ _) as [p cmd b|p|] eqn:R.
  - destruct (sane_result _ _ _ _ _ _ _ M S R) as (M' & RP & RN & RV & RB). injection H as <- <-. split.
    + apply mark_good. apply lim_good; assumption.
    + intros y [= <-]. pose proof (get_one k v K) as GO. split; [|split].
      * intros ->. cbn. specialize (RP v eq_refl OV). destruct (d_pos cmd) as [z|]; [apply RP; reflexivity|exact OV].
      * intros ->. cbn. destruct (d_vel cmd) as [z|]; [apply RV; reflexivity|apply OV].
      * intros KB N. destruct (RB k v KB GO N) as (v' & E' & _ & W). rewrite E'. exact W.
  - exfalso. destruct HL as (DL & HV & OKp & OKv & OKa). exact (no_throw l DL OKp _ _ _ S R).
  - injection H as <- <-. split; [apply mark_good; exact G|discriminate].
Qed.
Lemma known_states w w' : w_states w' = w_states w -> velocity_known l j w -> velocity_known l j w'.
Proof. unfold velocity_known, measured. intros ->. tauto. Qed.
Lemma pos_vel_neq : itf j "velocity" <> itf j "position".
Proof. intros E. apply itf_inj_l in E. discriminate E. Qed.
Lemma set_good_own tries : forall busy w k v c w' r, good w -> velocity_known l j w -> ordinary v -> In k kinds -> aget (w_cmds w) (itf j k) = Some c ->
  loaned_set tries busy w (itf j k) v = (w', r) ->
  good w' /\ (r = ROk true -> exists x, value w' (itf j k) = Some x /\ stores k v x).
Proof.
  induction tries as [|t IH]; intros busy w k v c w' r G KN OV K E H; cbn in H; [injection H as <- <-; split; [exact G|discriminate]|].
  destruct (on_set w (itf j k) v) as [w1 x] eqn:O. destruct (on_set_good _ _ _ _ _ _ G KN OV K E O) as [G1 S1].
  pose proof (on_set_touch _ _ _ _ _ _ E O) as T. pose proof (to_cm _ _ _ _ T (itf j k)) as C. rewrite E in C. destruct C as (c1 & E1 & _).
  destruct x as [x| |]; try (injection H as <- <-; split; [exact G1|discriminate]). destruct busy as [|b].
  - injection H as <- <-. specialize (S1 x eq_refl). destruct S1 as (SP & SV & SB). split.
    + destruct (String.eqb_spec k "position") as [->|N1]; [apply put_good; auto|]. destruct (String.eqb_spec k "velocity") as [->|N2]; [apply put_good_vel; auto|].
      apply put_good_other; [exact G1|intros X; apply itf_inj_l in X; contradiction|intros X; apply itf_inj_l in X; contradiction].
    + intros _. exists x. split; [|split; [exact SP|split; [exact SV|exact SB]]]. rewrite value_put, String.eqb_refl. unfold value. rewrite E1. reflexivity.
  - eapply IH; [exact G1|eapply known_states; [apply T|exact KN]|exact OV|exact K|exact E1|exact H].
Qed.
(** an interface that is not bound *)
Lemma set_unbound tries : forall busy w n v c w' r, aget (w_cmds w) n = Some c -> c_bound c = None -> good w -> ordinary v ->
  loaned_set tries busy w n v = (w', r) -> good w'.
Proof.
  induction tries as [|t IH]; intros busy w n v c w' r E B G OV H; cbn in H; [injection H as <- <-; exact G|].
  unfold on_set in H. rewrite E, B in H. destruct busy as [|b].
  - injection H as <- <-. apply put_good; [apply mark_good; exact G|]. intros _. exact OV.
  - eapply (IH b (mark w n false) n v (with_limited c false)); [|exact B|apply mark_good; exact G|exact OV|exact H].
    unfold mark. rewrite E. cbn. rewrite aget_aset_same. reflexivity.
Qed.
Lemma set_good w n v busy w' r : good w -> velocity_known l j w -> ordinary v -> loaned_set 10 busy w n v = (w', r) -> good w'.
Proof.
  intros G KN OV H. destruct (aget (w_cmds w) n) as [c|] eqn:E; [|apply set_none in H; [subst; exact G|exact E]].
  destruct (gd_bind _ G n c E) as (B1 & B2 & B3). destruct (c_bound c) as [hw|] eqn:B; [|eapply set_unbound; eauto].
  destruct (B2 hw eq_refl) as [LL K]. destruct (String.eqb_spec (c_prefix c) j) as [P|P].
  - rewrite P in B1. rewrite B1 in H, E. eapply set_good_own; [exact G|exact KN|exact OV|exact K|exact E|exact H].
  - eapply (same_for_good (eq n)); [eapply touch_same_for; [exact P|eapply set_touch; eauto]| |exact G].
    intros k x K' Ek _. exfalso. apply P. rewrite B1 in Ek. apply itf_inj in Ek; [apply Ek|exact K|]. destruct K' as [->| ->]; cbn; auto.
Qed.

(** -------------------------------------------------- the pass over the joints *)
Definition kept (touched : bool) (w w' : world) : Prop := forall k v, In k bounded_kinds -> held w (itf j k) -> value w (itf j k) = Some v -> isnan v = false ->
  exists v', value w' (itf j k) = Some v' /\ isnan v' = false /\ (touched = true \/ bounded l k v -> bounded l k v').
Lemma bk_kinds k : In k bounded_kinds -> In k kinds. Proof. cbn. intuition. Qed.
Lemma write_value w c k : In k kinds -> value (write_back w j c) (itf j k) = match get_kind c k with Some v => option_map (fun _ => v) (value w (itf j k)) | None => value w (itf j k) end.
Proof. intros K. unfold value. rewrite write_back_kind by exact K. destruct (get_kind c k); [|reflexivity]. destruct (aget (w_cmds w) (itf j k)); reflexivity. Qed.
Lemma write_good w c : good w -> each ordinary (d_pos c) -> each double (d_vel c) -> good (write_back w j c).
Proof.
  intros G P V. unfold write_back. cbn [fold_left kinds]. 
  assert (X1 : good (put_kind j c w "position")).
  { unfold put_kind. cbn. destruct (d_pos c) as [p|]; [|exact G]. apply put_good; [exact G|]. intros _. apply P. reflexivity. }
  assert (X2 : good (put_kind j c (put_kind j c w "position") "velocity")).
  { unfold put_kind at 1. cbn. destruct (d_vel c) as [v|]; [|exact X1]. apply put_good_vel; [exact X1|]. apply V. reflexivity. }
  assert (X3 : good (put_kind j c (put_kind j c (put_kind j c w "position") "velocity") "effort")).
  { unfold put_kind at 1. cbn. destruct (d_eff c) as [v|]; [|exact X2]. apply put_good_other; [exact X2| |]; intros E; apply itf_inj_l in E; discriminate E. }
  unfold put_kind at 1. cbn. destruct (d_acc c) as [v|]; [|exact X3]. apply put_good_other; [exact X3| |]; intros E; apply itf_inj_l in E; discriminate E.
Qed.
Lemma held_is w n : held w n -> is_claimed w n = true.
Proof. unfold held, is_claimed. intros ->. reflexivity. Qed.
Lemma joint_good hws : forall w dt acc w' r, good w -> velocity_known l j w -> dt_ok dt -> double dt -> enforce_joint hws w j dt acc = (w', r) ->
  good w' /\ (forall b, r = ROk b -> kept (mem hw0 hws) w w').
Proof.
  induction hws as [|hw hws IH]; intros w dt acc w' r G KN T1 T2 H; cbn in H.
  - injection H as <- <-. split; [exact G|]. intros _ _ k v I Hh Ev N. exists v. cbn. split; [exact Ev|]. split; [exact N|]. intros [X|X]; [discriminate|exact X].
  - destruct (lim_get w hw j) as [m|] eqn:L.
    + assert (hw = hw0) by (apply (gd_only _ G); congruence). subst hw. destruct (gd_lim _ G) as (m' & L' & X1 & X2 & M). assert (m' = m) by congruence. subst m'.
      assert (S : sane double l {| y_act := t_act (data_of (refresh w j) j); y_des := t_cmd (data_of (refresh w j) j); y_dt := dt |}).
      { pose proof (refresh_good w G) as GR. apply make_sane; [exact (gd_act _ GR)|exact (gd_des _ GR)|exact T1|exact T2|]. rewrite data_refresh. apply known_read. exact KN. }
      unfold run_limiter in H. rewrite X2, X1 in H. destruct (enforce l (m_prev m) _ _ dt) as [p c b|p|] eqn:R.
      * destruct (sane_result _ _ _ _ _ _ _ M S R) as (M' & RP & RN & RV & RB).
        set (w2 := lim_set (refresh w j) hw0 j (with_prev m p)) in *.
        assert (G2 : good w2) by (apply lim_good; [apply refresh_good; exact G|exact L|exact M']).
        assert (OP : each ordinary (d_pos c)).
        { destruct (d_pos (t_cmd (data_of (refresh w j) j))) as [q|] eqn:Q.
          - eapply RP; [exact eq_refl|]. pose proof (gd_des _ (refresh_good w G)) as ((D1 & _) & D2). split; [apply D1; exact Q|apply D2; exact Q].
          - rewrite (RN eq_refl). intros x [=]. }
        assert (G3 : good (if b then write_back w2 j c else w2)) by (destruct b; [apply write_good; assumption|exact G2]).
        assert (TT : touch (writable w j) j w (if b then write_back w2 j c else w2)).
        { eapply visit_touch; [exact L|reflexivity|]. unfold run_limiter. rewrite X2, X1. exact R. }
        assert (VV : forall k v, In k kinds -> held w (itf j k) -> value w (itf j k) = Some v -> get_kind (t_cmd (data_of (refresh w j) j)) k = Some v /\
                     forall v', get_kind c k = Some v' -> value (if b then write_back w2 j c else w2) (itf j k) = Some v').
        { intros k v K Hh Ev. assert (GV : get_kind (t_cmd (data_of (refresh w j) j)) k = Some v).
          { rewrite data_refresh. cbn [t_cmd]. rewrite get_fill by exact K. unfold read_cmd. unfold value in Ev. destruct (aget (w_cmds w) (itf j k)) as [x|]; [|discriminate].
            rewrite (held_is _ _ Hh). exact Ev. }
          split; [exact GV|]. intros v' E'. destruct b.
          - rewrite write_value by exact K. rewrite E'. change (value w2 (itf j k)) with (value w (itf j k)). rewrite Ev. reflexivity.
          - change (value w2 (itf j k)) with (value w (itf j k)). assert (c = t_cmd (data_of (refresh w j) j)) as ->.
            { pose proof (main_flag _ _ _ _ _ _ _ _ R) as MF. destruct MF as [_ MF].
              assert (DD : {c = t_cmd (data_of (refresh w j) j)} + {c <> t_cmd (data_of (refresh w j) j)}) by (repeat decide equality).
              destruct DD as [DD|DD]; [exact DD|]. discriminate (MF DD). }
            congruence. }
        destruct (IH _ dt b w' r G3 (known_states _ _ (to_st _ _ _ _ TT) KN) T1 T2 H) as [G4 K4]. split; [exact G4|]. intros bb Er k v I Hh Ev N.
        destruct (VV k v (bk_kinds k I) Hh Ev) as [GV NV]. destruct (RB k v I GV N) as (v1 & C1 & N1 & W1).
        assert (Hh3 : held (if b then write_back w2 j c else w2) (itf j k)) by (apply (held_touch _ _ _ _ _ TT); exact Hh).
        destruct (K4 bb Er k v1 I Hh3 (NV v1 C1) N1) as (v2 & E2 & N2 & W2).
        exists v2. split; [exact E2|]. split; [exact N2|]. intros _. apply W2. right. exact W1.
      * exfalso. destruct HL as (DL & HV & OKp & OKv & OKa). exact (no_throw l DL OKp _ _ _ S R).
      * injection H as <- <-. split; [apply refresh_good; exact G|discriminate].
    + destruct (IH w dt acc w' r G KN T1 T2 H) as [G4 K4]. split; [exact G4|]. intros bb Er. specialize (K4 bb Er).
      intros k v I Hh Ev N. destruct (K4 k v I Hh Ev N) as (v2 & E2 & N2 & W2). exists v2. split; [exact E2|]. split; [exact N2|]. intros X. apply W2.
      destruct X as [X|X]; [left|right; exact X]. cbn in X. destruct (String.eqb_spec hw0 hw) as [->|]; [|exact X].
      destruct (gd_lim _ G) as (m & L' & _). congruence.
Qed.
Lemma all_good order : forall w dt acc w' r, good w -> velocity_known l j w -> dt_ok dt -> double dt -> enforce_all order w dt acc = (w', r) ->
  good w' /\ (forall b, r = ROk b -> kept (mem j order) w w').
Proof.
  induction order as [|j' order IH]; intros w dt acc w' r G KN T1 T2 H; cbn in H.
  - injection H as <- <-. split; [exact G|]. intros _ _ k v I Hh Ev N. exists v. cbn. split; [exact Ev|]. split; [exact N|]. intros [X|X]; [discriminate|exact X].
  - destruct (enforce_joint (map fst (w_lims w)) w j' dt false) as [w1 r1] eqn:E.
    pose proof (joint_passed _ _ _ _ _ _ _ E) as PA.
    assert (X : good w1 /\ (forall b, r1 = ROk b -> kept (String.eqb j j') w w1)).
    { destruct (String.eqb_spec j j') as [<-|N].
      - destruct (joint_good _ _ _ _ _ _ G KN T1 T2 E) as [G1 K1]. split; [exact G1|]. intros b Er. specialize (K1 b Er).
        replace (mem hw0 (map fst (w_lims w))) with true in K1; [exact K1|]. symmetry. apply mem_In. destruct (gd_lim _ G) as (m & L & _). eapply lim_In_fst. exact L.
      - apply joint_touch in E. assert (SF : same_for (writable w j') w w1) by (eapply touch_same_for; [|exact E]; congruence).
        assert (NW : forall k, In k kinds -> ~ writable w j' (itf j k)).
        { intros k K (_ & k' & Ek & K'). apply itf_inj in Ek; [|exact K|exact K']. destruct Ek; contradiction. }
        split.
        + eapply same_for_good; [exact SF| |exact G]. intros k x K W. exfalso. revert W. apply NW. destruct K as [->| ->]; cbn; auto.
        + intros b _ k v I Hh Ev Nn. exists v. rewrite (same_for_value _ _ _ _ SF) by (apply NW; apply bk_kinds; exact I). split; [exact Ev|]. split; [exact Nn|]. intros [X|X]; [discriminate|exact X]. }
    destruct X as [G1 K1]. destruct r1 as [b1| |]; [|injection H as <- <-; split; [exact G1|discriminate]|injection H as <- <-; split; [exact G1|discriminate]].
    destruct (IH w1 dt _ w' r G1 (known_states _ _ (pa_st _ _ PA) KN) T1 T2 H) as [G2 K2]. split; [exact G2|]. intros b Er k v I Hh Ev N.
    destruct (K1 b1 eq_refl k v I Hh Ev N) as (v1 & E1 & N1 & W1).
    assert (Hh1 : held w1 (itf j k)) by (unfold held; rewrite (pa_cl _ _ PA); exact Hh).
    destruct (K2 b Er k v1 I Hh1 E1 N1) as (v2 & E2 & N2 & W2). exists v2. split; [exact E2|]. split; [exact N2|]. cbn [mem existsb]. intros X. apply W2.
    fold (mem j order) in X. destruct (String.eqb j j') eqn:J; [right; apply W1; left; reflexivity|]. cbn in X. destruct X as [X|X]; [left; exact X|right; apply W1; right; exact X].
Qed.

(** -------------------------------------------------- every history *)
Lemma step_good w o w' r : good w -> op_ok j l w o -> step w o = (w', r) -> good w'.
Proof.
  intros G OK H. destruct o as [n v|prefix kind v|n|n v|n b|n v busy|[|] order dt]; cbn [step op_ok] in *.
  - injection H as <- <-. destruct G as [A1 A2 A3 A4 A5 A6 A7 A8 A9 A10]. split; auto. intros n' v' E. unfold measured in E. cbn in E. rewrite aget_aset in E.
    destruct (String.eqb_spec n' n) as [->|]; [injection E as <-; exact OK|apply A5; exact E].
  - destruct (aget (w_cmds w) (itf prefix kind)) eqn:E0; [injection H as <- <-; exact G|]. 
    assert (B' : binding_ok w') by (eapply (step_keeps w (OAddCmd prefix kind v)); [cbn [step]; rewrite E0; exact H|apply G]).
    injection H as <- <-. destruct OK as [OV OWN]. destruct G as [A1 A2 A3 A4 A5 A6 A7 A8 A9 A10]. split; auto.
    + intros p E. unfold value in E. cbn in E. rewrite aget_aset in E. destruct (String.eqb (itf j "position") (itf prefix kind)); [injection E as <-; exact OV|apply A6; exact E].
    + intros p E. unfold value in E. cbn in E. rewrite aget_aset in E. destruct (String.eqb (itf j "velocity") (itf prefix kind)); [injection E as <-; apply OV|apply A7; exact E].
    + intros k c K E. cbn in E. rewrite aget_aset in E. destruct (String.eqb_spec (itf j k) (itf prefix kind)) as [X|X]; [|eapply A9; eauto].
      injection E as <-. cbn. eapply OWN; [exact K|]. symmetry. exact X.
  - assert (B' : binding_ok w') by (eapply (step_keeps w (ORemove n)); [exact H|apply G]).
    injection H as <- <-. destruct G as [A1 A2 A3 A4 A5 A6 A7 A8 A9 A10]. split; auto.
    + intros p E. unfold value in E. cbn in E. rewrite aget_adel in E. destruct (String.eqb _ n); [discriminate|apply A6; exact E].
    + intros p E. unfold value in E. cbn in E. rewrite aget_adel in E. destruct (String.eqb _ n); [discriminate|apply A7; exact E].
    + intros k c K E. cbn in E. rewrite aget_adel in E. destruct (String.eqb _ n); [discriminate|]. eapply A9; eauto.
  - injection H as <- <-. apply put_good; [exact G|]. intros _. exact OK.
  - injection H as <- <-. destruct G as [A1 A2 A3 A4 A5 A6 A7 A8 A9 A10]. split; auto.
  - destruct OK as [OV KN]. eapply set_good; eauto.
  - destruct OK as (T1 & T2 & KN). eapply all_good; eauto.
  - injection H as <- <-. exact G.
Qed.
Lemma run_good os : forall w, good w -> calm j l w os -> good (run_ops w os).
Proof.
  induction os as [|o os IH]; intros w G C; cbn in *; [exact G|]. destruct C as [C1 C2]. destruct (step w o) as [w1 r] eqn:E. cbn in *.
  apply IH; [|exact C2]. eapply step_good; eauto.
Qed.
Lemma start_good infos period : only_limits infos hw0 j l -> dt_ok period -> double period -> good (start infos period).
Proof.
  intros (GL & UQ & NS) T1 T2. destruct (start_cmds infos period) as (S1 & S2 & S3). split.
  - destruct (lim_get (start infos period) hw0 j) as [m|] eqn:L; [|exfalso; eapply import_there; [exact GL|exact L]].
    exists m. split; [reflexivity|]. apply start_fresh in L. destruct L as (P & hi & A & B & C & D & E).
    destruct (UQ hw0 (m_hard m)) as [_ ->]; [exists hi; auto|]. split; [reflexivity|]. split; [rewrite E; apply NS; exact A|]. rewrite P.
    split; [split; intros x X; discriminate X|]. split; intros x X; discriminate X.
  - intros hw N. destruct (lim_get (start infos period) hw j) as [m|] eqn:L; [|contradiction]. apply start_fresh in L. destruct L as (P & hi & A & B & C & D & E).
    apply (UQ hw (m_hard m)). exists hi. auto.
  - rewrite start_data. apply act_none.
  - rewrite start_data. apply des_none.
  - intros n v E. unfold measured in E. rewrite S2 in E. discriminate.
  - intros p E. unfold value in E. rewrite S1 in E. discriminate.
  - intros p E. unfold value in E. rewrite S1 in E. discriminate.
  - rewrite S3. auto.
  - intros k c _ E. rewrite S1 in E. discriminate.
  - apply start_binding.
Qed.
End Joint.

Lemma main_set_within infos period hw j l ops k v busy w' : sensible l -> only_limits infos hw j l -> dt_ok period -> double period ->
  let w0 := after infos period [] in let w := after infos period ops in
  calm j l w0 ops -> op_ok j l w (OSet (itf j k) v busy) -> In k bounded_kinds -> isnan v = false -> value w (itf j k) <> None ->
  step w (OSet (itf j k) v busy) = (w', ROk true) ->
  exists x, value w' (itf j k) = Some x /\ bounded l k x.
Proof.
  intros HL OL T1 T2 w0 w C OK I N V H. pose proof (run_good j hw l HL ops w0 (start_good j hw l infos period OL T1 T2) C) as G. fold w in G. change (run_ops w0 ops) with w in G.
  unfold value in V. destruct (aget (w_cmds w) (itf j k)) as [c|] eqn:E; [|contradiction].
  cbn in OK. destruct OK as [OV KN]. destruct (set_good_own j hw l HL 10 busy w k v c w' _ G KN OV (bk_kinds k I) E H) as [_ X].
  destruct (X eq_refl) as (x & E' & _ & _ & B). exists x. split; [exact E'|auto].
Qed.
Lemma main_cycle_within infos period hw j l ops k v order dt w' b : sensible l -> only_limits infos hw j l -> dt_ok period -> double period ->
  let w0 := after infos period [] in let w := after infos period ops in
  calm j l w0 ops -> op_ok j l w (OEnforce true order dt) -> In j order -> In k bounded_kinds -> held w (itf j k) -> value w (itf j k) = Some v -> isnan v = false ->
  step w (OEnforce true order dt) = (w', ROk b) ->
  exists x, value w' (itf j k) = Some x /\ bounded l k x.
Proof.
  intros HL OL T1 T2 w0 w C OK IJ I Hh V N H. pose proof (run_good j hw l HL ops w0 (start_good j hw l infos period OL T1 T2) C) as G. change (run_ops w0 ops) with w in G.
  cbn in OK. destruct OK as (D1 & D2 & KN). cbn [step] in H. destruct (all_good j hw l HL order w dt false w' _ G KN D1 D2 H) as [_ K].
  destruct (K b eq_refl k v I Hh V N) as (x & E & _ & B). exists x. split; [exact E|]. apply B. left. apply mem_In. exact IJ.
Qed.
