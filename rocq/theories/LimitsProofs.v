(** LimitsProofs.v -- facts about the limiters that need only the order on doubles. *)
From Coq Require Import ZArith Bool List SpecFloat Lia.
From Verif Require Import LimitsModel FloatOrder LimitsSpec.
Open Scope Z_scope.

Lemma within_clamp v lo hi v' a b : isnan v = false -> fle a lo = true -> fle hi b = true ->
  fclamp v lo hi = Some v' -> within a v' b.
Proof.
  intros Nv Ha Hb H. destruct (fclamp_within _ _ _ _ Nv (proj2 (fle_nn _ _ Ha)) (proj1 (fle_nn _ _ Hb)) H). split; eapply fle_trans; eassumption.
Qed.
Lemma fmin_cases a b : (fmin a b = a /\ flt b a = false) \/ (fmin a b = b /\ flt b a = true).
Proof. unfold fmin. destruct (flt b a); auto. Qed.
Lemma fmax_cases a b : (fmax a b = a /\ flt a b = false) \/ (fmax a b = b /\ flt a b = true).
Proof. unfold fmax. destruct (flt a b); auto. Qed.
Lemma fmin_nn a b : isnan a = false -> isnan b = false -> isnan (fmin a b) = false.
Proof. unfold fmin. destruct (flt b a); auto. Qed.
Lemma fmax_nn a b : isnan a = false -> isnan b = false -> isnan (fmax a b) = false.
Proof. unfold fmax. destruct (flt a b); auto. Qed.
Lemma fmin_l a b : isnan a = false -> isnan b = false -> fle (fmin a b) a = true.
Proof. intros. destruct (fmin_cases a b) as [[-> E]|[-> E]]; ford. Qed.
Lemma fmin_r a b : isnan a = false -> isnan b = false -> fle (fmin a b) b = true.
Proof. intros. destruct (fmin_cases a b) as [[-> E]|[-> E]]; ford. Qed.
Lemma fmax_l a b : isnan a = false -> isnan b = false -> fle a (fmax a b) = true.
Proof. intros. destruct (fmax_cases a b) as [[-> E]|[-> E]]; ford. Qed.
Lemma fmax_r a b : isnan a = false -> isnan b = false -> fle b (fmax a b) = true.
Proof. intros. destruct (fmax_cases a b) as [[-> E]|[-> E]]; ford. Qed.
Lemma fmin_glb a b c : fle c a = true -> fle c b = true -> fle c (fmin a b) = true.
Proof. unfold fmin. destruct (flt b a); auto. Qed.
Lemma fmax_lub a b c : fle a c = true -> fle b c = true -> fle (fmax a b) c = true.
Proof. unfold fmax. destruct (flt a b); auto. Qed.

Lemma swap_bounds b lo hi a c : fle a (fst b) = true -> fle (fst b) c = true -> fle a (snd b) = true -> fle (snd b) c = true ->
  swap b = (lo, hi) -> fle a lo = true /\ fle lo c = true /\ fle a hi = true /\ fle hi c = true.
Proof. destruct b as [x y]. cbn. destruct (flt y x); intros ? ? ? ? [= <- <-]; auto. Qed.
Lemma swap_not b lo hi : swap b = (lo, hi) -> flt hi lo = false.
Proof. destruct b as [x y]. cbn. destruct (flt y x) eqn:E; intros [= <- <-]; [|exact E]. ford. Qed.
Lemma swap_le b : fle (fst b) (snd b) = true -> swap b = b.
Proof. destruct b as [x y]. cbn. intros H. rewrite (fle_not_lt _ _ H). reflexivity. Qed.

(** ------------------------------------------------------------ the shape of on_enforce *)
Lemma limit1_flag des bs d' b : limit1 des bs = Some (d', b) -> (b = true <-> d' <> des).
Proof.
  unfold limit1. destruct des as [v|]; [|intros [= <- <-]; split; [discriminate|congruence]].
  destruct (isnan v); [intros [= <- <-]; split; [discriminate|congruence]|].
  destruct (bs v) as [lo hi]. destruct (fclamp v lo hi) as [v'|] eqn:E; [|discriminate].
  intros [= <- <-]. rewrite (fclamp_flag _ _ _ _ E). split; intros H C; apply H; congruence.
Qed.
Lemma limit1o_flag des bs d' b : limit1o des bs = Some (d', b) -> (b = true <-> d' <> des).
Proof.
  unfold limit1o. destruct des as [v|]; [|intros [= <- <-]; split; [discriminate|congruence]].
  destruct (isnan v); [intros [= <- <-]; split; [discriminate|congruence]|].
  destruct (bs v) as [[lo hi]|]; [|discriminate]. destruct (fclamp v lo hi) as [v'|] eqn:E; [|discriminate].
  intros [= <- <-]. rewrite (fclamp_flag _ _ _ _ E). split; intros H C; apply H; congruence.
Qed.
Lemma limit1_some v bs d' b : isnan v = false -> limit1 (Some v) bs = Some (d', b) ->
  exists lo hi v', bs v = (lo, hi) /\ fclamp v lo hi = Some v' /\ d' = Some v' /\ b = is_limited v lo hi.
Proof.
  intros N. unfold limit1. rewrite N. destruct (bs v) as [lo hi] eqn:B. destruct (fclamp v lo hi) as [v'|] eqn:E; [|discriminate].
  intros [= <- <-]. exists lo, hi, v'. auto.
Qed.
Lemma limit1o_some v bs d' b : isnan v = false -> limit1o (Some v) bs = Some (d', b) ->
  exists lo hi v', bs v = Some (lo, hi) /\ fclamp v lo hi = Some v' /\ d' = Some v' /\ b = is_limited v lo hi.
Proof.
  intros N. unfold limit1o. rewrite N. destruct (bs v) as [[lo hi]|] eqn:B; [|discriminate]. destruct (fclamp v lo hi) as [v'|] eqn:E; [|discriminate].
  intros [= <- <-]. exists lo, hi, v'. auto.
Qed.
Lemma finish_done prev p v e a j prev' cmd b : finish prev p v e a j = Done prev' cmd b ->
  exists bp bv be ba bj, p = Some (d_pos cmd, bp) /\ v = Some (d_vel cmd, bv) /\ e = Some (d_eff cmd, be) /\
    a = Some (d_acc cmd, ba) /\ j = Some (d_jerk cmd, bj) /\ prev' = remember cmd prev /\ b = bp || bv || be || ba || bj.
Proof.
  unfold finish. destruct p as [[p' bp]|]; [|discriminate]. destruct v as [[v' bv]|]; [|discriminate].
  destruct e as [[e' be]|]; [|discriminate]. destruct a as [[a' ba]|]; [|discriminate]. destruct j as [[j' bj]|]; [|discriminate].
  intros [= <- <- <-]. exists bp, bv, be, ba, bj. cbn. repeat split.
Qed.
Lemma jd_eq a b : a = b <-> d_pos a = d_pos b /\ d_vel a = d_vel b /\ d_eff a = d_eff b /\ d_acc a = d_acc b /\ d_jerk a = d_jerk b.
Proof. destruct a, b. cbn. split; [intros [= -> -> -> -> ->]; auto|intros (-> & -> & -> & -> & ->); reflexivity]. Qed.
Lemma flags5 (cmd des : jd) bp bv be ba bj :
  (bp = true <-> d_pos cmd <> d_pos des) -> (bv = true <-> d_vel cmd <> d_vel des) -> (be = true <-> d_eff cmd <> d_eff des) ->
  (ba = true <-> d_acc cmd <> d_acc des) -> (bj = true <-> d_jerk cmd <> d_jerk des) ->
  (bp || bv || be || ba || bj = true <-> cmd <> des).
Proof.
  intros H1 H2 H3 H4 H5. split.
  - rewrite !orb_true_iff, H1, H2, H3, H4, H5. intros H E. subst. tauto.
  - intros H. destruct (bp || bv || be || ba || bj) eqn:E; [reflexivity|]. exfalso. apply H. rewrite !orb_false_iff in E.
    destruct E as ((((-> & ->) & ->) & ->) & ->).
    assert (K : forall (x y : option F), (false = true <-> x <> y) -> x = y).
    { intros x y [_ K]. assert (D : {x = y} + {x <> y}) by repeat decide equality. destruct D as [D|D]; [exact D|]. discriminate (K D). }
    apply jd_eq. repeat split; apply K; assumption.
Qed.

Lemma enforce_done l prev act des dt prev' cmd b : enforce l prev act des dt = Done prev' cmd b -> flt fzero dt = true ->
  exists bp bv be ba bj,
    limit1 (d_pos des) (fun _ => position_limits l (d_vel act) (d_pos act) (d_pos (fill prev act des)) dt) = Some (d_pos cmd, bp) /\
    limit1 (d_vel des) (fun v => velocity_limits l v (d_pos act) (d_vel (fill prev act des)) dt) = Some (d_vel cmd, bv) /\
    limit1 (d_eff des) (fun _ => effort_limits l (d_pos act) (d_vel act)) = Some (d_eff cmd, be) /\
    limit1 (d_acc des) (fun a => acceleration_limits l a (d_vel act)) = Some (d_acc cmd, ba) /\
    limit1 (d_jerk des) (fun _ => (fopp (l_maxj l), l_maxj l)) = Some (d_jerk cmd, bj) /\
    prev' = remember cmd (fill prev act des) /\ b = bp || bv || be || ba || bj.
Proof.
  intros H P. unfold enforce in H. destruct (fle dt fzero) eqn:D; [apply fle_not_lt in D; congruence|].
  destruct (commands_position des && out_of_bounds l (d_pos act)); [discriminate|]. apply finish_done in H. exact H.
Qed.
Lemma enforce_idle l prev act des dt : flt fzero dt = false -> isnan dt = false -> enforce l prev act des dt = Done prev des false.
Proof. intros H N. unfold enforce. replace (fle dt fzero) with true; [reflexivity|]. symmetry. apply flt_not_le; auto. Qed.

(** the limiter says it changed the command if and only if it did *)
Lemma main_flag l prev act des dt prev' cmd b : enforce l prev act des dt = Done prev' cmd b -> (b = true <-> cmd <> des).
Proof.
  intros H. unfold enforce in H. destruct (fle dt fzero); [injection H as <- <- <-; split; [discriminate|congruence]|].
  destruct (commands_position des && out_of_bounds l (d_pos act)); [discriminate|].
  apply finish_done in H. destruct H as (bp & bv & be & ba & bj & H1 & H2 & H3 & H4 & H5 & _ & ->).
  apply limit1_flag in H1, H2, H3, H4, H5. apply flags5; assumption.
Qed.
Lemma main_flag_soft l s prev act des dt prev' cmd b : enforce_soft l s prev act des dt = Done prev' cmd b -> (b = true <-> cmd <> des).
Proof.
  intros H. unfold enforce_soft in H. destruct (fle dt fzero); [injection H as <- <- <-; split; [discriminate|congruence]|].
  destruct (soft_vel l s (fill prev act des) act) as [sv|]; [|discriminate].
  destruct (commands_position des && out_of_bounds l (d_pos act)); [discriminate|].
  apply finish_done in H. destruct H as (bp & bv & be & ba & bj & H1 & H2 & H3 & H4 & H5 & _ & ->).
  apply limit1o_flag in H1, H3. apply limit1_flag in H2, H4, H5. apply flags5; assumption.
Qed.

(** clamping is always defined in the saturation limiter *)
Lemma limit1_def des bs : (forall v lo hi, bs v = (lo, hi) -> flt hi lo = false) -> exists x, limit1 des bs = Some x.
Proof.
  intros H. unfold limit1. destruct des as [v|]; [|eauto]. destruct (isnan v); [eauto|]. destruct (bs v) as [lo hi] eqn:B.
  unfold fclamp. rewrite (H _ _ _ B). eauto.
Qed.
Lemma ninf_inf : flt inf ninf = false. Proof. reflexivity. Qed.
Lemma main_defined l prev act des dt : flt (l_maxj l) (fopp (l_maxj l)) = false -> enforce l prev act des dt <> Undefined.
Proof.
  intros HJ. unfold enforce. destruct (fle dt fzero); [discriminate|].
  destruct (commands_position des && out_of_bounds l (d_pos act)); [discriminate|].
  destruct (limit1_def (d_pos des) (fun _ => position_limits l (d_vel act) (d_pos act) (d_pos (fill prev act des)) dt)) as [[? ?] E1].
  { intros _ lo hi H. eapply swap_not. exact H. }
  destruct (limit1_def (d_vel des) (fun v => velocity_limits l v (d_pos act) (d_vel (fill prev act des)) dt)) as [[? ?] E2].
  { intros v lo hi H. unfold velocity_limits in H. destruct (l_hv l); [|injection H as <- <-; reflexivity]. eapply swap_not. exact H. }
  destruct (limit1_def (d_eff des) (fun _ => effort_limits l (d_pos act) (d_vel act))) as [[? ?] E3].
  { intros v lo hi H. unfold effort_limits in H. destruct (l_he l); [|injection H as <- <-; reflexivity]. eapply swap_not. exact H. }
  destruct (limit1_def (d_acc des) (fun a => acceleration_limits l a (d_vel act))) as [[? ?] E4].
  { intros v lo hi H. eapply swap_not. exact H. }
  destruct (limit1_def (d_jerk des) (fun _ => (fopp (l_maxj l), l_maxj l))) as [[? ?] E5].
  { intros v lo hi [= <- <-]. exact HJ. }
  rewrite E1, E2, E3, E4, E5. discriminate.
Qed.
(** it throws exactly when a position is commanded and the measured one is too far out *)
Lemma finish_not_threw prev p v e a j q : finish prev p v e a j <> Threw q.
Proof. unfold finish. intros H. repeat match type of H with context [match ?x with Some _ => _ | None => _ end] => destruct x as [[? ?]|] end; discriminate. Qed.
Lemma main_throw_keeps l s prev act des dt p : has_data prev = true ->
  enforce l prev act des dt = Threw p \/ enforce_soft l s prev act des dt = Threw p -> p = prev.
Proof.
  intros HD [H|H].
  - unfold enforce in H. destruct (fle dt fzero); [discriminate|]. unfold fill in H. rewrite HD in H.
    destruct (commands_position des && out_of_bounds l (d_pos act)); [injection H as <-; reflexivity|exfalso; eapply finish_not_threw; exact H].
  - unfold enforce_soft in H. destruct (fle dt fzero); [discriminate|]. unfold fill in H. rewrite HD in H. cbv zeta in H. destruct (soft_vel l s prev act) as [sv|]; [|discriminate].
    destruct (commands_position des && out_of_bounds l (d_pos act)); [injection H as <-; reflexivity|exfalso; eapply finish_not_threw; exact H].
Qed.
Lemma main_throws l prev act des dt : flt fzero dt = true ->
  ((exists p, enforce l prev act des dt = Threw p) <->
   exists p q, d_pos des = Some p /\ isnan p = false /\ d_pos act = Some q /\ l_hp l = true /\
     (flt (fadd (l_maxp l) throw_tol) q = true \/ flt q (fsub (l_minp l) throw_tol) = true)).
Proof.
  intros P. unfold enforce. replace (fle dt fzero) with false by (symmetry; destruct (fle dt fzero) eqn:D; [apply fle_not_lt in D; congruence|reflexivity]).
  unfold commands_position, out_of_bounds. split.
  - destruct (d_pos des) as [p|]; cbn [andb].
    2:{ intros (x & H). unfold finish in H. repeat match type of H with context [match ?x with Some _ => _ | None => _ end] => destruct x as [[? ?]|] end; discriminate. }
    destruct (isnan p) eqn:N; cbn [negb andb].
    { intros (x & H). unfold finish in H. repeat match type of H with context [match ?x with Some _ => _ | None => _ end] => destruct x as [[? ?]|] end; discriminate. }
    destruct (d_pos act) as [q|] eqn:Q.
    2:{ intros (x & H). unfold finish in H. repeat match type of H with context [match ?x with Some _ => _ | None => _ end] => destruct x as [[? ?]|] end; discriminate. }
    destruct (l_hp l) eqn:L; cbn [andb].
    2:{ intros (x & H). unfold finish in H. repeat match type of H with context [match ?x with Some _ => _ | None => _ end] => destruct x as [[? ?]|] end; discriminate. }
    destruct (flt (fadd (l_maxp l) throw_tol) q || flt q (fsub (l_minp l) throw_tol)) eqn:E.
    + intros _. exists p, q. apply orb_true_iff in E. auto 10.
    + intros (x & H). unfold finish in H. repeat match type of H with context [match ?x with Some _ => _ | None => _ end] => destruct x as [[? ?]|] end; discriminate.
  - intros (p & q & -> & N & -> & -> & E). rewrite N. apply orb_true_iff in E. rewrite E. cbn. eauto.
Qed.

(** ------------------------------------------------------------ effort, acceleration *)
Lemma effort_bounds l pa va lo hi : l_he l = true -> fle fzero (l_maxe l) = true ->
  effort_limits l pa va = (lo, hi) ->
  fle (fopp (l_maxe l)) lo = true /\ fle lo fzero = true /\ fle fzero hi = true /\ fle hi (l_maxe l) = true.
Proof.
  intros He Pe. unfold effort_limits. rewrite He.
  destruct (fle_opp0 _ Pe) as [N1 N2].
  assert (Z0 : fle fzero fzero = true) by reflexivity.
  match goal with |- swap ?b = _ -> _ => assert (K : fle (fopp (l_maxe l)) (fst b) = true /\ fle (fst b) fzero = true /\ fle fzero (snd b) = true /\ fle (snd b) (l_maxe l) = true) end.
  { assert (R : fle (fopp (l_maxe l)) (fopp (l_maxe l)) = true) by (apply fle_refl; apply (fle_nn _ _ N1)).
    assert (R' : fle (l_maxe l) (l_maxe l) = true) by (apply fle_refl; apply (fle_nn _ _ Pe)).
    destruct va as [v|]; destruct pa as [p|]; repeat match goal with |- context [if ?x then _ else _] => destruct x end; cbn [fst snd]; auto. }
  destruct K as (A & B & C & D). intros H. rewrite (swap_le _ (fle_trans _ _ _ B C)) in H. rewrite H in *. cbn in *. auto.
Qed.
Lemma main_effort l prev act des dt prev' cmd b e : l_he l = true -> fle fzero (l_maxe l) = true -> flt fzero dt = true ->
  enforce l prev act des dt = Done prev' cmd b -> d_eff des = Some e -> isnan e = false ->
  exists e', d_eff cmd = Some e' /\ within (fopp (l_maxe l)) e' (l_maxe l).
Proof.
  intros He Pe P H D N. apply enforce_done in H; [|exact P]. destruct H as (bp & bv & be & ba & bj & _ & _ & H & _). rewrite D in H.
  apply limit1_some in H; [|exact N]. destruct H as (lo & hi & e' & B & C & -> & _). apply effort_bounds in B; auto. destruct B as (A1 & A2 & A3 & A4).
  exists e'. split; [reflexivity|]. eapply within_clamp; eassumption.
Qed.
(** effort is never applied further into a violated limit *)
Lemma main_outward l prev act des dt prev' cmd b e v : l_he l = true -> fle fzero (l_maxe l) = true -> flt fzero dt = true ->
  enforce l prev act des dt = Done prev' cmd b -> d_eff des = Some e -> isnan e = false -> d_vel act = Some v ->
  exists e', d_eff cmd = Some e' /\
    (forall q, l_hp l = true -> d_pos act = Some q -> fle q (l_minp l) = true -> flt v fzero = true -> fle fzero e' = true) /\
    (forall q, l_hp l = true -> d_pos act = Some q -> fle (l_maxp l) q = true -> flt fzero v = true -> fle e' fzero = true) /\
    (l_hv l = true -> fle fzero (l_maxv l) = true -> flt v (fopp (l_maxv l)) = true -> fle fzero e' = true) /\
    (l_hv l = true -> fle fzero (l_maxv l) = true -> flt (l_maxv l) v = true -> fle e' fzero = true).
Proof.
  intros He Pe P H D N V. apply enforce_done in H; [|exact P]. destruct H as (bp & bv & be & ba & bj & _ & _ & H & _). rewrite D in H.
  apply limit1_some in H; [|exact N]. destruct H as (lo & hi & e' & B & C & -> & _). exists e'. split; [reflexivity|].
  pose proof (effort_bounds _ _ _ _ _ He Pe B) as (A1 & A2 & A3 & A4).
  assert (W : within lo e' hi) by exact (fclamp_within _ _ _ _ N (proj1 (fle_nn _ _ A2)) (proj2 (fle_nn _ _ A3)) C).
  assert (ZL : lo = fzero -> fle fzero e' = true) by (intros ->; apply W).
  assert (ZH : hi = fzero -> fle e' fzero = true) by (intros ->; apply W).
  unfold effort_limits in B. rewrite He, V in B.
  destruct (fle_opp0 _ Pe) as [N1 N2].
  assert (SW : forall b x y, fle (fst b) fzero = true -> fle fzero (snd b) = true -> swap b = (x, y) -> b = (x, y)).
  { intros b0 x y L1 L2 E. rewrite (swap_le _ (fle_trans _ _ _ L1 L2)) in E. exact E. }
  apply SW in B.
  2,3: destruct (d_pos act); repeat match goal with |- context [if ?x then _ else _] => destruct x end; auto; reflexivity.
  repeat split.
  - intros q Hp Q L Vn. rewrite Q, Hp in B. assert (X : fle v fzero = true) by (apply flt_le; exact Vn). rewrite L, X in B. cbn [andb fst snd] in B.
    apply ZL. destruct (l_hv l); [destruct (flt v (fopp (l_maxv l))); [congruence|destruct (flt (l_maxv l) v)]|]; congruence.
  - intros q Hp Q L Vn. rewrite Q, Hp in B.
    assert (X : fle v fzero = false). { destruct (fle v fzero) eqn:E; [|reflexivity]. apply fle_not_lt in E. congruence. }
    rewrite X, andb_false_r in B. rewrite L, (flt_le _ _ Vn) in B. cbn [andb fst snd] in B.
    apply ZH. destruct (l_hv l); [destruct (flt v (fopp (l_maxv l))); [congruence|destruct (flt (l_maxv l) v)]|]; congruence.
  - intros Hv Pv L. rewrite Hv, L in B. apply ZL. destruct (d_pos act); congruence.
  - intros Hv Pv L. rewrite Hv in B.
    assert (X : flt v (fopp (l_maxv l)) = false).
    { apply fle_not_lt. apply flt_le. eapply fle_lt_trans; [|exact L]. apply (fle_opp0 _ Pv). }
    rewrite X, L in B. apply ZH. destruct (d_pos act); congruence.
Qed.
Lemma main_acceleration l prev act des dt prev' cmd b a : flt fzero dt = true ->
  enforce l prev act des dt = Done prev' cmd b -> d_acc des = Some a -> isnan a = false ->
  exists a', d_acc cmd = Some a' /\
    ((exists v, d_vel act = Some v /\ ((flt a fzero = true /\ flt fzero v = true) \/ (flt fzero a = true /\ flt v fzero = true))) ->
      l_hd l = true -> fle fzero (l_maxd l) = true -> within (fopp (l_maxd l)) a' (l_maxd l)) /\
    (~ (l_hd l = true /\ exists v, d_vel act = Some v /\ ((flt a fzero = true /\ flt fzero v = true) \/ (flt fzero a = true /\ flt v fzero = true))) ->
      l_ha l = true -> fle fzero (l_maxa l) = true -> within (fopp (l_maxa l)) a' (l_maxa l)).
Proof.
  intros P H D N. apply enforce_done in H; [|exact P]. destruct H as (bp & bv & be & ba & bj & _ & _ & _ & H & _). rewrite D in H.
  apply limit1_some in H; [|exact N]. destruct H as (lo & hi & e' & B & C & -> & _). exists e'. split; [reflexivity|].
  unfold acceleration_limits in B.
  set (sl := match d_vel act with Some v => (flt a fzero && flt fzero v) || (flt fzero a && flt v fzero) | None => false end) in B.
  assert (S : sl = true <-> exists v, d_vel act = Some v /\ ((flt a fzero = true /\ flt fzero v = true) \/ (flt fzero a = true /\ flt v fzero = true))).
  { unfold sl. destruct (d_vel act) as [v|].
    - rewrite orb_true_iff, !andb_true_iff. split; [intros X; exists v; auto|intros (w & [= <-] & X); exact X].
    - split; [discriminate|intros (w & X & _); discriminate]. }
  split.
  - intros X Hd Pd. apply S in X. rewrite Hd, X in B. cbn [andb] in B. rewrite swap_le in B by (cbn; apply (fle_opp0 _ Pd)).
    injection B as <- <-. eapply within_clamp; [exact N|..|exact C]; apply fle_refl; [rewrite (proj2 (proj2 (proj2 (k_opp (l_maxd l)))))|]; apply (fle_nn _ _ Pd).
  - intros X Ha Pa. assert (Y : l_hd l && sl = false).
    { destruct (l_hd l) eqn:Hd; [|reflexivity]. destruct sl eqn:E; [|reflexivity]. exfalso. apply X. split; [reflexivity|]. apply S. reflexivity. }
    rewrite Y, Ha in B. rewrite swap_le in B by (cbn; apply (fle_opp0 _ Pa)).
    injection B as <- <-. eapply within_clamp; [exact N|..|exact C]; apply fle_refl; [rewrite (proj2 (proj2 (proj2 (k_opp (l_maxa l)))))|]; apply (fle_nn _ _ Pa).
Qed.
Lemma main_jerk l prev act des dt prev' cmd b j : flt fzero dt = true -> fle fzero (l_maxj l) = true ->
  enforce l prev act des dt = Done prev' cmd b -> d_jerk des = Some j -> isnan j = false ->
  exists j', d_jerk cmd = Some j' /\ within (fopp (l_maxj l)) j' (l_maxj l).
Proof.
  intros P Pj H D N. apply enforce_done in H; [|exact P]. destruct H as (bp & bv & be & ba & bj & _ & _ & _ & _ & H & _). rewrite D in H.
  apply limit1_some in H; [|exact N]. destruct H as (lo & hi & e' & B & C & -> & _). injection B as <- <-. exists e'. split; [reflexivity|].
  eapply within_clamp; [exact N|..|exact C]; apply fle_refl; [rewrite (proj2 (proj2 (proj2 (k_opp (l_maxj l)))))|]; apply (fle_nn _ _ Pj).
Qed.

(** ------------------------------------------------------------ position *)
Lemma dt_nonzero dt : flt fzero dt = true -> nonzero dt = true.
Proof. apply pos_nonzero. Qed.
Lemma delta_nn l va dt : finite (l_maxv l) -> finite dt -> flt fzero dt = true -> isnan (pos_delta l va dt) = false.
Proof.
  intros Fv Fd P. unfold pos_delta.
  match goal with |- context [fmin ?a ?b] => set (dv := b) end.
  apply fmul_nn'; [|exact Fd|apply pos_nonzero; exact P].
  destruct (fmin_cases (l_maxv l) dv) as [[-> _]|[-> E]]; [apply fin_nn; exact Fv|apply (flt_nn _ _ E)].
Qed.
Lemma position_bounds l va pa prev dt lo hi : pos_limits_ok l -> (l_hv l = true -> finite (l_maxv l)) -> finite dt -> flt fzero dt = true ->
  each finite (pos_ref prev pa) -> position_limits l va pa prev dt = (lo, hi) ->
  fle (l_minp l) lo = true /\ fle lo hi = true /\ fle hi (l_maxp l) = true.
Proof.
  intros (Fm & FM & L) Fv Fd P HR. unfold position_limits.
  destruct (fle_nn _ _ L) as [Nm NM]. assert (Rm := fle_refl _ Nm). assert (RM := fle_refl _ NM).
  destruct (l_hv l); [|rewrite swap_le by exact L; intros [= <- <-]; auto].
  destruct (pos_ref prev pa) as [r|]; [|rewrite swap_le by exact L; intros [= <- <-]; auto].
  pose proof (delta_nn l va dt (Fv eq_refl) Fd P) as Nd. set (dp := pos_delta l va dt) in *.
  pose proof (fsub_nn r dp (HR r eq_refl) Nd) as N1. pose proof (fadd_nn r dp (HR r eq_refl) Nd) as N2.
  set (x := fsub r dp) in *. set (y := fadd r dp) in *.
  assert (Nx : isnan (fmin x (l_maxp l)) = false) by (apply fmin_nn; assumption).
  set (lo' := fmax (fmin x (l_maxp l)) (l_minp l)).
  assert (K1 : fle (l_minp l) lo' = true) by (apply fmax_r; assumption).
  assert (K2 : fle lo' (l_maxp l) = true) by (apply fmax_lub; [apply fmin_r; assumption|exact L]).
  assert (Nlo : isnan lo' = false) by (apply (fle_nn _ _ K2)).
  assert (Ny : isnan (fmax y lo') = false) by (apply fmax_nn; assumption).
  assert (K3 : fle lo' (fmin (fmax y lo') (l_maxp l)) = true) by (apply fmin_glb; [apply fmax_r; assumption|exact K2]).
  assert (K4 : fle (fmin (fmax y lo') (l_maxp l)) (l_maxp l) = true) by (apply fmin_r; assumption).
  rewrite swap_le by exact K3. intros [= <- <-]. auto.
Qed.
Lemma fill_pos prev act des p : d_pos des = Some p -> isnan p = false ->
  each finite (d_pos prev) -> each finite (d_pos act) -> (isfinite p = true \/ d_pos act <> None \/ has_data prev = true) ->
  each finite (pos_ref (d_pos (fill prev act des)) (d_pos act)).
Proof.
  intros D N Hp Ha Hx. unfold fill. destruct (has_data prev) eqn:HD.
  - unfold pos_ref. destruct (d_pos prev); assumption.
  - cbn [d_pos]. unfold fill1. rewrite D. destruct (d_pos act) as [q|] eqn:Q; [exact Ha|].
    rewrite N. cbn. intros r [= <-]. destruct Hx as [H|[H|H]]; [exact H|congruence|discriminate].
Qed.
Lemma main_position l prev act des dt prev' cmd b p : l_hp l = true -> pos_limits_ok l -> (l_hv l = true -> finite (l_maxv l)) -> dt_ok dt ->
  each finite (d_pos prev) -> each finite (d_pos act) -> (finite p \/ d_pos act <> None \/ has_data prev = true) ->
  enforce l prev act des dt = Done prev' cmd b -> d_pos des = Some p -> isnan p = false ->
  exists p', d_pos cmd = Some p' /\ within (l_minp l) p' (l_maxp l).
Proof.
  intros Hp OK Fv [Fd P] F1 F2 F3 H D N. apply enforce_done in H; [|exact P]. destruct H as (bp & bv & be & ba & bj & H & _). rewrite D in H.
  apply limit1_some in H; [|exact N]. destruct H as (lo & hi & p' & B & C & -> & _). exists p'. split; [reflexivity|].
  apply position_bounds in B; auto; [|apply (fill_pos _ _ _ p); assumption]. destruct B as (A1 & A2 & A3).
  eapply within_clamp; eassumption.
Qed.

(** ------------------------------------------------------------ NaN commands *)
Lemma nan_limit1 des bs d' b : limit1 des bs = Some (d', b) -> (forall v, des = Some v -> isnan v = true) -> d' = des.
Proof. unfold limit1. destruct des as [v|]; [|intros [= <- <-]; reflexivity]. intros H K. rewrite (K v eq_refl) in H. injection H as <- <-. reflexivity. Qed.
Lemma nan_limit1o des bs d' b : limit1o des bs = Some (d', b) -> (forall v, des = Some v -> isnan v = true) -> d' = des.
Proof. unfold limit1o. destruct des as [v|]; [|intros [= <- <-]; reflexivity]. intros H K. rewrite (K v eq_refl) in H. injection H as <- <-. reflexivity. Qed.
Lemma nan_remember d prev : (forall v, d = Some v -> isnan v = true) -> remember1 d prev = prev.
Proof. unfold remember1. destruct d as [v|]; [|reflexivity]. intros K. rewrite (K v eq_refl). reflexivity. Qed.
Definition quiet (o : option F) : Prop := forall v, o = Some v -> isnan v = true.
Lemma finish_quiet prev p v e a j prev' cmd b des :
  (forall x bx, p = Some (x, bx) -> quiet (d_pos des) -> x = d_pos des) ->
  (forall x bx, v = Some (x, bx) -> quiet (d_vel des) -> x = d_vel des) ->
  (forall x bx, e = Some (x, bx) -> quiet (d_eff des) -> x = d_eff des) ->
  (forall x bx, a = Some (x, bx) -> quiet (d_acc des) -> x = d_acc des) ->
  (forall x bx, j = Some (x, bx) -> quiet (d_jerk des) -> x = d_jerk des) ->
  finish prev p v e a j = Done prev' cmd b ->
  (quiet (d_pos des) -> d_pos cmd = d_pos des /\ d_pos prev' = d_pos prev) /\
  (quiet (d_vel des) -> d_vel cmd = d_vel des /\ d_vel prev' = d_vel prev) /\
  (quiet (d_eff des) -> d_eff cmd = d_eff des /\ d_eff prev' = d_eff prev) /\
  (quiet (d_acc des) -> d_acc cmd = d_acc des /\ d_acc prev' = d_acc prev) /\
  (quiet (d_jerk des) -> d_jerk cmd = d_jerk des /\ d_jerk prev' = d_jerk prev).
Proof.
  intros H1 H2 H3 H4 H5 H. apply finish_done in H. destruct H as (bp & bv & be & ba & bj & E1 & E2 & E3 & E4 & E5 & -> & _).
  repeat apply conj; intros Q;
    [assert (K := H1 _ _ E1 Q)|assert (K := H2 _ _ E2 Q)|assert (K := H3 _ _ E3 Q)|assert (K := H4 _ _ E4 Q)|assert (K := H5 _ _ E5 Q)];
    (split; [exact K|]); cbn [remember d_pos d_vel d_eff d_acc d_jerk]; rewrite K; apply nan_remember; exact Q.
Qed.
Lemma fill_has prev act des : has_data prev = true -> fill prev act des = prev.
Proof. unfold fill. intros ->. reflexivity. Qed.
Lemma main_nan l prev act des dt prev' cmd b : has_data prev = true -> enforce l prev act des dt = Done prev' cmd b ->
  (quiet (d_pos des) -> d_pos cmd = d_pos des /\ d_pos prev' = d_pos prev) /\
  (quiet (d_vel des) -> d_vel cmd = d_vel des /\ d_vel prev' = d_vel prev) /\
  (quiet (d_eff des) -> d_eff cmd = d_eff des /\ d_eff prev' = d_eff prev) /\
  (quiet (d_acc des) -> d_acc cmd = d_acc des /\ d_acc prev' = d_acc prev) /\
  (quiet (d_jerk des) -> d_jerk cmd = d_jerk des /\ d_jerk prev' = d_jerk prev).
Proof.
  intros HD H. unfold enforce in H. destruct (fle dt fzero); [injection H as <- <- <-; auto 10|]. rewrite (fill_has _ _ _ HD) in H.
  destruct (commands_position des && out_of_bounds l (d_pos act)); [discriminate|].
  eapply finish_quiet; [..|exact H]; intros x bx E Q; eapply nan_limit1; eassumption.
Qed.
Lemma main_nan_soft l s prev act des dt prev' cmd b : has_data prev = true -> enforce_soft l s prev act des dt = Done prev' cmd b ->
  (quiet (d_pos des) -> d_pos cmd = d_pos des /\ d_pos prev' = d_pos prev) /\
  (quiet (d_vel des) -> d_vel cmd = d_vel des /\ d_vel prev' = d_vel prev) /\
  (quiet (d_eff des) -> d_eff cmd = d_eff des /\ d_eff prev' = d_eff prev) /\
  (quiet (d_acc des) -> d_acc cmd = d_acc des /\ d_acc prev' = d_acc prev) /\
  (quiet (d_jerk des) -> d_jerk cmd = d_jerk des /\ d_jerk prev' = d_jerk prev).
Proof.
  intros HD H. unfold enforce_soft in H. destruct (fle dt fzero); [injection H as <- <- <-; auto 10|]. rewrite (fill_has _ _ _ HD) in H.
  destruct (soft_vel l s prev act) as [sv|]; [|discriminate].
  destruct (commands_position des && out_of_bounds l (d_pos act)); [discriminate|].
  eapply finish_quiet; [..|exact H]; intros x bx E Q; first [eapply nan_limit1; eassumption|eapply nan_limit1o; eassumption].
Qed.
