From Coq Require Import ZArith Bool List Lia Psatz.
From Verif Require Import TimingModel TimingSpec.
Import ListNotations.
Open Scope Z_scope.

Lemma sec_pos : 0 < sec. Proof. reflexivity. Qed.
Local Opaque sec.
(** --- the loop *)
Lemma period_pos rate : 0 < rate <= sec -> 0 < loop_period rate.
Proof. intros H. unfold loop_period. apply Z.div_str_pos. lia. Qed.
Lemma ceil_spec a : - ((- a) / sec) * sec < a + sec /\ a <= - ((- a) / sec) * sec.
Proof.
  pose proof sec_pos. pose proof (Z.div_mod (- a) sec ltac:(lia)). pose proof (Z.mod_pos_bound (- a) sec H). nia.
Qed.
Lemma next_wake_cases manage rate next now w : next_wake manage rate next now = Some w ->
  w = next + loop_period rate \/
  (manage = true /\ next + loop_period rate < now /\ exists c, w = next + loop_period rate + c * loop_period rate /\
     is_ceiling c ((now - (next + loop_period rate)) * rate) sec).
Proof.
  unfold next_wake, overrun_count. destruct (manage && (next + loop_period rate <? now)) eqn:E.
  - destruct (_ <=? _); [|discriminate]. intros H. injection H as <-. right.
    apply andb_true_iff in E as [-> E]. apply Z.ltb_lt in E. split; [reflexivity|]. split; [exact E|].
    eexists. split; [reflexivity|]. unfold is_ceiling. pose proof (ceil_spec ((now - (next + loop_period rate)) * rate)). lia.
  - intros H. injection H as <-. now left.
Qed.
Lemma main_step_grid manage rate next now w : 0 < rate <= sec -> next_wake manage rate next now = Some w ->
  exists k, 1 <= k /\ w = next + k * loop_period rate.
Proof.
  intros Hr H. pose proof sec_pos. destruct (next_wake_cases _ _ _ _ _ H) as [->|(_ & Hlt & c & -> & Hc)].
  - exists 1. lia.
  - exists (1 + c). unfold is_ceiling in Hc. split; [nia|lia].
Qed.
Lemma main_grid manage rate nows : 0 < rate <= sec -> forall next ws, wakes manage rate next nows = Some ws ->
  consecutive (fun a b => exists k, 1 <= k /\ b = a + k * loop_period rate) (next :: ws) /\
  List.length ws = List.length nows.
Proof.
  intros Hr. induction nows as [|now nows IH]; intros next ws; cbn [wakes].
  - intros H. injection H as <-. split; [constructor|reflexivity].
  - destruct (next_wake manage rate next now) as [w|] eqn:E; [|discriminate].
    destruct (wakes manage rate w nows) as [ws'|] eqn:E2; [|discriminate]. intros H. injection H as <-.
    destruct (IH w ws' E2) as [A B]. split; [|cbn; congruence]. constructor; [|exact A].
    eapply main_step_grid; eassumption.
Qed.
Lemma main_not_past rate next now w : 0 < rate <= sec -> sec mod rate = 0 -> next_wake true rate next now = Some w ->
  now <= w /\ (w = next + loop_period rate \/ w < now + loop_period rate).
Proof.
  intros Hr Hd H. pose proof sec_pos as Hs.
  assert (HP : sec = rate * loop_period rate) by (unfold loop_period; pose proof (Z.div_mod sec rate ltac:(lia)); lia).
  destruct (next_wake_cases _ _ _ _ _ H) as [->|(_ & Hlt & c & -> & Hc)].
  - split; [|now left]. unfold next_wake in H. destruct (Z.ltb_spec (next + loop_period rate) now); [|lia].
    cbn [andb] in H. unfold overrun_count in H. pose proof (ceil_spec ((now - (next + loop_period rate)) * rate)).
    destruct (_ <=? _); [|discriminate]. injection H as H.
    pose proof (period_pos rate Hr). nia.
  - unfold is_ceiling in Hc. rewrite HP in Hc. split.
    + assert ((now - (next + loop_period rate)) <= c * loop_period rate) by nia. lia.
    + right. assert (c * loop_period rate < now - (next + loop_period rate) + loop_period rate) by nia. lia.
Qed.
Lemma main_lag rate next now w : 0 < rate <= sec -> next_wake true rate next now = Some w ->
  (now - w) * sec < Z.max 0 ((now - (next + loop_period rate)) * rate) + sec.
Proof.
  intros Hr H. pose proof sec_pos as Hs.
  assert (HP : rate * loop_period rate <= sec < rate * loop_period rate + rate).
  { unfold loop_period. pose proof (Z.div_mod sec rate ltac:(lia)). pose proof (Z.mod_pos_bound sec rate ltac:(lia)). lia. }
  pose proof (period_pos rate Hr) as Pp.
  unfold next_wake in H. destruct (Z.ltb_spec (next + loop_period rate) now) as [L|L]; cbn [andb] in H.
  - unfold overrun_count in H. pose proof (ceil_spec ((now - (next + loop_period rate)) * rate)) as [C1 C2].
    set (c := - (- ((now - (next + loop_period rate)) * rate) / sec)) in *.
    destruct (c <=? 2147483647); [|discriminate]. injection H as <-.
    set (d := now - (next + loop_period rate)) in *. replace (now - (next + loop_period rate + c * loop_period rate)) with (d - c * loop_period rate) by (unfold d; lia).
    assert (Hd : 0 < d) by (unfold d; lia). rewrite Z.max_r by nia.
    (* d*rate <= c*sec < c*(rate*P + rate)  so d < c*P + c *)
    assert (0 < c) by nia.
    assert (d * rate < c * (rate * loop_period rate + rate)) by nia.
    assert (d < c * loop_period rate + c) by nia.
    assert ((d - c * loop_period rate) <= c - 1) by lia. nia.
  - injection H as <-. pose proof (Z.le_max_l 0 ((now - (next + loop_period rate)) * rate)). nia.
Qed.
Lemma main_on_time manage rate next now : now <= next + loop_period rate \/ manage = false ->
  next_wake manage rate next now = Some (next + loop_period rate).
Proof.
  intros H. unfold next_wake. destruct H as [H| ->]; [|reflexivity].
  replace (next + loop_period rate <? now) with false by (symmetry; apply Z.ltb_ge; exact H). rewrite andb_false_r. reflexivity.
Qed.
Lemma main_defined manage rate next now : 0 < rate -> (now - next - loop_period rate) * rate <= 2147483647 * sec ->
  exists w, next_wake manage rate next now = Some w.
Proof.
  intros Hr H. unfold next_wake, overrun_count. destruct (manage && _); [|eauto].
  replace (_ <=? _) with true; [eauto|]. symmetry. apply Z.leb_le.
  pose proof (ceil_spec ((now - (next + loop_period rate)) * rate)). pose proof sec_pos. nia.
Qed.
Lemma main_blocking mn elapsed : 0 <= mn -> 0 <= elapsed ->
  mn - 1000 < elapsed + blocking_sleep mn elapsed /\ (mn <= elapsed -> blocking_sleep mn elapsed = 0).
Proof.
  intros H1 H2. unfold blocking_sleep. destruct (Z.ltb_spec elapsed mn).
  - pose proof (Z.div_mod mn 1000 ltac:(lia)). pose proof (Z.mod_pos_bound mn 1000 ltac:(lia)). lia.
  - split; [lia|auto].
Qed.

(** --- when a controller is updated *)
Lemma go_rule u r p : 0 < u -> 0 < r ->
  (Z.abs (p * r * u - u * sec) <=? Z.abs ((p * u + sec) * r - u * sec)) = true <-> (2 * u - r) * sec <= 2 * u * r * p.
Proof.
  intros Hu Hr. pose proof sec_pos. rewrite Z.leb_le.
  set (a := p * r * u - u * sec). replace ((p * u + sec) * r - u * sec) with (a + r * sec) by (unfold a; ring).
  assert (Hb : 0 < r * sec) by nia. unfold a. split; intros; [|]; nia.
Qed.
Lemma main_go u r z last now : 0 < u -> 0 < r ->
  (controller_go u r z last now = true <->
   u <= r \/ z = true \/ last = None \/ exists l, last = Some l /\ (2 * u - r) * sec <= 2 * u * r * (now - l)).
Proof.
  intros Hu Hr. unfold controller_go. rewrite !orb_true_iff, Z.leb_le. destruct last as [l|].
  - rewrite go_rule by assumption. split.
    + intros [[H|H]|H]; [auto|auto|right; right; right; eauto].
    + intros [H|[H|[H|(l' & E & H)]]]; [auto|auto|discriminate|injection E as <-; auto].
  - split; [intros _; auto|auto].
Qed.
Lemma main_full_rate u r cs : u <= r -> forall last, Forall (fun o => o <> None) (ticks u r last cs).
Proof.
  intros H. induction cs as [|c cs IH]; intros last; cbn [ticks]; [constructor|]. unfold tick, controller_go.
  replace (u <=? r) with true by (symmetry; apply Z.leb_le; exact H). cbn [orb]. constructor; [discriminate|apply IH].
Qed.
(** spacing, for every schedule *)
Lemma spacing_min u r cs : 0 < r < u -> Forall proper cs -> forall last,
  (match last with Some l => consecutive (fun a b => (2 * u - r) * sec <= 2 * u * r * (b - a)) (l :: update_times cs (ticks u r last cs))
   | None => consecutive (fun a b => (2 * u - r) * sec <= 2 * u * r * (b - a)) (update_times cs (ticks u r last cs)) end).
Proof.
  intros Hr Hp. induction Hp as [|c cs Hc Hp IH]; intros last; cbn [ticks].
  - destruct last; constructor.
  - unfold tick. destruct (controller_go u r (c_time_zero c) last (c_now c)) eqn:G; cbn [update_times].
    + specialize (IH (Some (c_now c))). cbn beta iota in IH. destruct last as [l|]; [|exact IH]. constructor; [|exact IH].
      apply main_go in G; [|lia|lia]. rewrite Hc in G. destruct G as [G|[G|[G|(l' & E & G)]]]; [lia|discriminate|discriminate|].
      injection E as <-. exact G.
    + exact (IH last).
Qed.
Lemma main_spacing_min u r cs : 0 < r < u -> Forall proper cs ->
  consecutive (fun a b => (2 * u - r) * sec <= 2 * u * r * (b - a)) (update_times cs (ticks u r None cs)).
Proof. intros Hr Hp. exact (spacing_min u r cs Hr Hp None). Qed.
(** ... and no longer than one manager cycle beyond that *)
Lemma spacing_max u r d cs : 0 < r < u -> 0 <= d -> forall l prev,
  Forall proper cs -> (prev = l \/ 2 * u * r * (prev - l) < (2 * u - r) * sec) ->
  consecutive (fun a b => b - a <= d) (prev :: map c_now cs) ->
  consecutive (fun a b => b - a <= d \/ 2 * u * r * (b - a - d) < (2 * u - r) * sec) (l :: update_times cs (ticks u r (Some l) cs)).
Proof.
  intros Hr Hd. induction cs as [|c cs IH]; intros l prev Hp Hl Hc; cbn [ticks]; [constructor|].
  inversion Hp as [|? ? P1 P2]; subst. cbn [map] in Hc. inversion Hc as [| |? ? ? C1 C2]; subst.
  unfold tick. destruct (controller_go u r (c_time_zero c) (Some l) (c_now c)) eqn:G; cbn [update_times].
  - constructor.
    + destruct Hl as [->|Hl]; [now left|]. right.
      assert (2 * u * r * (c_now c - l - d) <= 2 * u * r * (prev - l)) by (apply Z.mul_le_mono_nonneg_l; nia). lia.
    + apply (IH (c_now c) (c_now c)); auto.
  - apply (IH l (c_now c)); auto. right. apply not_true_iff_false in G. rewrite main_go in G by lia.
    apply Z.lt_nge. intros H. apply G. right. right. right. exists l. split; [reflexivity|]. exact H.
Qed.
Lemma main_spacing_max u r d cs : 0 < r < u -> 0 <= d -> Forall proper cs ->
  consecutive (fun a b => b - a <= d) (map c_now cs) ->
  consecutive (fun a b => b - a <= d \/ 2 * u * r * (b - a - d) < (2 * u - r) * sec) (update_times cs (ticks u r None cs)).
Proof.
  intros Hr Hd Hp Hc. destruct cs as [|c cs]; cbn [ticks]; [constructor|]. unfold tick, controller_go. rewrite orb_true_r. cbn [update_times].
  inversion Hp; subst. apply (spacing_max u r d cs Hr Hd (c_now c) (c_now c)); auto.
Qed.

(** periods handed over *)
Fixpoint periods_ok (last : option Z) (cs : list cycle) (os : list (option given)) : Prop :=
  match cs, os with
  | [], [] => True
  | c :: cs, o :: os =>
    match o with
    | None => periods_ok last cs os
    | Some Nominal => last = None /\ periods_ok (Some (c_now c)) cs os
    | Some (Elapsed p) => (exists l, last = Some l /\ p = c_now c - l) /\ periods_ok (Some (c_now c)) cs os
    end
  | _, _ => False
  end.
Lemma main_periods u r cs : forall last, periods_ok last cs (ticks u r last cs).
Proof.
  induction cs as [|c cs IH]; intros last; cbn [ticks]; [exact I|]. unfold tick.
  destruct (controller_go u r (c_time_zero c) last (c_now c)); cbn [periods_ok].
  - destruct last as [l|]; (split; [eauto|apply IH]).
  - apply IH.
Qed.

Lemma nearest_exists u r : 0 < r <= u -> exists j, nearest u r j.
Proof.
  intros H. set (q := (2 * u - r + 2 * r - 1) / (2 * r)).
  pose proof (Z.div_mod (2 * u - r + 2 * r - 1) (2 * r) ltac:(lia)) as D.
  pose proof (Z.mod_pos_bound (2 * u - r + 2 * r - 1) (2 * r) ltac:(lia)) as M. fold q in D.
  exists (Z.max 1 q). unfold nearest. destruct (Z.max_spec 1 q) as [[A ->]|[A ->]].
  - split; [lia|]. split; [nia|right; nia].
  - split; [lia|]. split; [nia|now left].
Qed.
Lemma go_regular u r T l k z j : 0 < r < u -> u * T = sec -> 0 < T -> nearest u r j -> 1 <= k -> z = false ->
  controller_go u r z (Some l) (l + k * T) = (j <=? k).
Proof.
  intros Hr HT Tp (J1 & J2 & J3) Hk ->. apply eq_true_iff_eq. rewrite main_go by lia. rewrite Z.leb_le.
  assert (E : (2 * u - r) * sec <= 2 * u * r * (l + k * T - l) <-> 2 * u <= (2 * k + 1) * r).
  { replace (l + k * T - l) with (k * T) by lia. rewrite <- HT.
    replace ((2 * u - r) * (u * T)) with ((u * T) * (2 * u - r)) by ring. replace (2 * u * r * (k * T)) with ((u * T) * (2 * k * r)) by ring.
    rewrite <- Z.mul_le_mono_pos_l by nia. lia. }
  split.
  - intros [H|[H|[H|(l' & Hl & H)]]]; [lia|discriminate|discriminate|]. injection Hl as <-. apply E in H.
    destruct J3 as [->|J3]; [lia|]. nia.
  - intros H. right. right. right. exists l. split; [reflexivity|]. apply E. nia.
Qed.
Lemma count_regular u r T j : 0 < r < u -> u * T = sec -> 0 < T -> nearest u r j ->
  forall n l k, 0 <= k < j ->
  let c := updates (ticks u r (Some l) (regular (l + (k + 1) * T) T n)) in is_ceiling (c + 1) (k + 1 + Z.of_nat n) j.
Proof.
  intros Hr HT Tp Hj. induction n as [|n IH]; intros l k Hk; cbn [regular].
  - cbn. unfold is_ceiling. lia.
  - cbn [ticks tick c_time_zero c_now]. unfold tick. cbn [c_time_zero c_now].
    rewrite (go_regular u r T l (k + 1) false j) by (auto; lia).
    destruct (Z.leb_spec j (k + 1)).
    + unfold updates. cbn [filter List.length].
      assert (k + 1 = j) by lia.
      specialize (IH (l + (k + 1) * T) 0 ltac:(lia)). cbn zeta in IH. unfold updates in IH.
      replace (l + (k + 1) * T + (0 + 1) * T) with (l + (k + 1) * T + T) in IH by lia.
      unfold is_ceiling in *. rewrite Nat2Z.inj_succ. lia.
    + unfold updates. cbn [filter].
      specialize (IH l (k + 1) ltac:(lia)). cbn zeta in IH. unfold updates in IH.
      replace (l + (k + 1 + 1) * T) with (l + (k + 1) * T + T) in IH by lia.
      unfold is_ceiling in *. rewrite Nat2Z.inj_succ. lia.
Qed.
Lemma main_count u r T t0 n j : 0 < r < u -> u * T = sec -> nearest u r j ->
  is_ceiling (updates (ticks u r None (regular t0 T n))) (Z.of_nat n) j.
Proof.
  intros Hr HT Hj. pose proof sec_pos. assert (Tp : 0 < T) by nia. pose proof Hj as (J1 & _ & _).
  destruct n as [|n]; cbn [regular].
  - cbn. unfold is_ceiling. lia.
  - cbn [ticks]. unfold tick. cbn [c_time_zero c_now]. unfold controller_go. rewrite orb_true_r.
    pose proof (count_regular u r T j Hr HT Tp Hj n t0 0 ltac:(lia)) as C. cbn zeta in C.
    replace (t0 + (0 + 1) * T) with (t0 + T) in C by lia. unfold updates in *. cbn [filter List.length].
    unfold is_ceiling in *. rewrite !Nat2Z.inj_succ. lia.
Qed.
Lemma nearest_divisor u r : 0 < r -> 0 < u -> u mod r = 0 -> nearest u r (u / r).
Proof.
  intros Hr Hu Hd. pose proof (Z.div_mod u r ltac:(lia)). assert (u = r * (u / r)) by lia.
  assert (0 < u / r) by nia. unfold nearest. split; [lia|]. split; [nia|right; nia].
Qed.
Lemma main_divisor u r T t0 n : 0 < r < u -> u * T = sec -> u mod r = 0 ->
  is_ceiling (updates (ticks u r None (regular t0 T n))) (Z.of_nat n * r) u.
Proof.
  intros Hr HT Hd. pose proof (main_count u r T t0 n (u / r) Hr HT (nearest_divisor u r ltac:(lia) ltac:(lia) Hd)) as C.
  pose proof (Z.div_mod u r ltac:(lia)). assert (E : u = r * (u / r)) by lia. unfold is_ceiling in *.
  set (c := updates _) in *. set (j := u / r) in *. clearbody c j. subst u. nia.
Qed.

(** --- the configured rate *)
Lemma main_configured u q : 0 < u ->
  configured_rate u u q = if q <? 0 then None else if (u <? q) || (q =? 0) then Some u
    else Some (if u mod q =? 0 then q else u / round_div u q).
Proof.
  intros Hu. unfold configured_rate. destruct (Z.ltb_spec q 0); [reflexivity|].
  replace (u =? 0) with false by (symmetry; apply Z.eqb_neq; lia). cbn [negb andb].
  destruct (Z.ltb_spec u q); [reflexivity|]. cbn [orb].
  replace (0 <? u) with true by (symmetry; apply Z.ltb_lt; lia). rewrite andb_true_r.
  destruct (Z.ltb_spec 0 q), (Z.eqb_spec q 0); try lia; reflexivity.
Qed.
Lemma round_spec a b : 0 < b -> 2 * a - b < 2 * b * round_div a b <= 2 * a + b.
Proof.
  intros Hb. unfold round_div. pose proof (Z.div_mod (2 * a + b) (2 * b) ltac:(lia)).
  pose proof (Z.mod_pos_bound (2 * a + b) (2 * b) ltac:(lia)). lia.
Qed.
Lemma main_configured_range u q r : 0 < u -> configured_rate u u q = Some r -> 0 < r <= u.
Proof.
  intros Hu. rewrite main_configured by assumption. destruct (Z.ltb_spec q 0); [discriminate|].
  destruct ((u <? q) || (q =? 0)) eqn:E; [intros H1; injection H1 as <-; lia|].
  apply orb_false_iff in E as [E1 E2]. apply Z.ltb_ge in E1. apply Z.eqb_neq in E2.
  intros H1. injection H1 as <-. destruct (u mod q =? 0); [lia|].
  pose proof (round_spec u q ltac:(lia)).
  assert (R : 1 <= round_div u q <= u) by nia.
  split; [apply Z.div_str_pos; lia|]. apply Z.div_le_upper_bound; nia.
Qed.
