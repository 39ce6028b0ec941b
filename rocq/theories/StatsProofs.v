(** StatsProofs.v -- Welford's recurrence gives the textbook statistics. *)
From Coq Require Import Reals List Bool Arith Lra Lia Psatz.
From Verif Require Import StatsModel StatsSpec.
Import ListNotations.
Open Scope R_scope.

Lemma sum_app : forall a b, sum (a ++ b) = sum a + sum b.
Proof. unfold sum. induction a as [|x a IH]; intros; cbn [app fold_right]; [lra|]. rewrite IH. lra. Qed.
Lemma sum_map_sq : forall xs c, sum (map (fun x => (x - c) ^ 2) xs)
  = sum (map (fun x => x ^ 2) xs) - 2 * c * sum xs + INR (length xs) * c ^ 2.
Proof.
  induction xs as [|x xs IH]; intros c; [unfold sum; cbn; lra|].
  unfold sum in *. cbn [map fold_right length]. rewrite IH, S_INR. cbn; ring_simplify; lra.
Qed.
Definition sqdev (xs : list R) : R := sum (map (fun x => (x - mean xs) ^ 2) xs).
Lemma INR_pos : forall n, 0 < INR (S n). Proof. intros. apply lt_0_INR. lia. Qed.
Lemma sum_mean : forall xs, sum xs = INR (length xs) * mean xs.
Proof.
  intros [|x xs]; [unfold sum, mean; cbn; lra|]. unfold mean. pose proof (INR_pos (length xs)). cbn [length].
  field. lra.
Qed.
Lemma mean_nil : forall xs, length xs = O -> sum xs = 0.
Proof. intros [|]; [reflexivity|discriminate]. Qed.

Lemma mean_snoc : forall xs x a, sum xs = INR (length xs) * a ->
  mean (xs ++ [x]) = a + (x - a) / INR (S (length xs)).
Proof.
  intros xs x a H. unfold mean. rewrite sum_app, app_length. cbn [length].
  replace (length xs + 1)%nat with (S (length xs)) by lia. unfold sum at 2. cbn [fold_right]. rewrite H.
  pose proof (INR_pos (length xs)). rewrite S_INR in *. field. lra.
Qed.
Lemma sqdev_closed : forall xs, sqdev xs = sum (map (fun x => x ^ 2) xs) - INR (length xs) * mean xs ^ 2.
Proof. intros. unfold sqdev. rewrite sum_map_sq. rewrite (sum_mean xs). ring. Qed.
Lemma sqdev_snoc : forall xs x a, sum xs = INR (length xs) * a ->
  sqdev (xs ++ [x]) = (sum (map (fun x => x ^ 2) xs) - INR (length xs) * a ^ 2)
     + (x - a) * (x - mean (xs ++ [x])).
Proof.
  intros xs x a H. rewrite sqdev_closed. rewrite (mean_snoc xs x a H).
  rewrite map_app, sum_app, app_length. cbn [length map]. unfold sum at 2. cbn [fold_right].
  replace (length xs + 1)%nat with (S (length xs)) by lia.
  pose proof (INR_pos (length xs)). rewrite S_INR in *. field. lra.
Qed.

(** the collector describes the window xs *)
Definition avg_ok (xs : list R) (a : R) : Prop := sum xs = INR (length xs) * a.
Record shows (xs : list R) (c : collector) : Prop := {
  sh_count : count (sdata c) = length xs;
  sh_avg : exists a, average (sdata c) = Num a /\ avg_ok xs a /\
           sumsq c = Num (sum (map (fun x => x ^ 2) xs) - INR (length xs) * a ^ 2);
  sh_min : exists m, minimum (sdata c) = Num m /\ (forall x, In x xs -> m <= x) /\ (xs <> [] -> In m xs) /\ (xs = [] -> m = DBL_MAX);
  sh_max : exists m, maximum (sdata c) = Num m /\ (forall x, In x xs -> x <= m) /\ (xs <> [] -> In m xs) /\ (xs = [] -> m = - DBL_MAX);
  sh_std : xs <> [] -> std_dev (sdata c) = Num (sqrt (variance xs))
}.

Lemma shows_reset : forall c, shows [] (reset c).
Proof.
  intros c. constructor; cbn.
  - reflexivity.
  - exists 0. unfold avg_ok, sum; cbn. repeat split; try lra. f_equal. lra.
  - exists DBL_MAX. repeat split; try contradiction; congruence.
  - exists (- DBL_MAX). repeat split; try contradiction; congruence.
  - congruence.
Qed.

Lemma shows_add : forall xs c r, shows xs c -> - DBL_MAX <= r <= DBL_MAX -> shows (xs ++ [r]) (add (Num r) c).
Proof.
  intros xs c r [Hc (a & Ha & Hok & Hs) (mn & Hmn & Hmn1 & Hmn2 & Hmn3) (mx & Hmx & Hmx1 & Hmx2 & Hmx3) Hsd] Hr.
  assert (Hne : xs ++ [r] <> []) by (destruct xs; discriminate).
  pose proof (mean_snoc xs r a Hok) as Hmean.
  pose proof (sqdev_snoc xs r a Hok) as Hsq.
  assert (Hlen : length (xs ++ [r]) = S (length xs)) by (rewrite app_length; cbn; lia).
  assert (Hav : avg_ok (xs ++ [r]) (mean (xs ++ [r]))) by (apply sum_mean).
  assert (HSS : lift2 Rplus (sumsq c) (lift2 Rmult (lift2 Rminus (Num r) (Num a)) (lift2 Rminus (Num r) (Num (mean (xs ++ [r])))))
          = Num (sqdev (xs ++ [r]))) by (rewrite Hs, Hsq; reflexivity).
  assert (HA : lift2 Rplus (Num a) (lift2 Rdiv (lift2 Rminus (Num r) (Num a)) (Num (INR (S (length xs))))) = Num (mean (xs ++ [r])))
    by (rewrite Hmean; reflexivity).
  constructor; cbn [add sdata count average minimum maximum std_dev sumsq].
  - rewrite Hlen. now rewrite Hc.
  - exists (mean (xs ++ [r])). rewrite Ha, Hc, HA. split; [reflexivity|]. split; [exact Hav|].
    rewrite HSS, sqdev_closed. reflexivity.
  - rewrite Hmn. cbn [vmin]. destruct (Rlt_dec r mn) as [L|L].
    + exists r. repeat split; try congruence.
      * intros x Hx. apply in_app_or in Hx as [Hx|[<-|[]]]; [specialize (Hmn1 x Hx); lra|lra].
      * intros _. apply in_or_app. right. now left.
    + exists mn. repeat split; try congruence.
      * intros x Hx. apply in_app_or in Hx as [Hx|[<-|[]]]; [auto|lra].
      * intros _. destruct xs as [|y ys].
        -- rewrite Hmn3 in * by reflexivity. left. cbn. lra.
        -- apply in_or_app. left. apply Hmn2. discriminate.
  - rewrite Hmx. cbn [vmax]. destruct (Rlt_dec mx r) as [L|L].
    + exists r. repeat split; try congruence.
      * intros x Hx. apply in_app_or in Hx as [Hx|[<-|[]]]; [specialize (Hmx1 x Hx); lra|lra].
      * intros _. apply in_or_app. right. now left.
    + exists mx. repeat split; try congruence.
      * intros x Hx. apply in_app_or in Hx as [Hx|[<-|[]]]; [auto|lra].
      * intros _. destruct xs as [|y ys].
        -- rewrite Hmx3 in * by reflexivity. left. cbn. lra.
        -- apply in_or_app. left. apply Hmx2. discriminate.
  - intros _. rewrite Ha, Hc, HA, HSS. unfold variance. rewrite Hlen. reflexivity.
Qed.

Lemma shows_data : forall xs c c', shows xs c -> sdata c' = sdata c -> sumsq c' = sumsq c -> shows xs c'.
Proof. intros xs c c' [H1 H2 H3 H4 H5] E1 E2. constructor; rewrite ?E1, ?E2; assumption. Qed.

Lemma shows_statistics : forall xs c, xs <> [] -> shows xs c -> statistics_of xs (sdata c).
Proof.
  intros xs c Hne [G1 (a & Ha & Hok & _) (mn & ? & ? & ? & _) (mx & ? & ? & ? & _) G5].
  unfold statistics_of. split; [assumption|]. split.
  - rewrite Ha. f_equal. unfold mean. rewrite Hok. destruct xs as [|x xs]; [congruence|].
    pose proof (INR_pos (length xs)). cbn [length]. field. lra.
  - split; [auto|]. unfold least, greatest. split; eauto 6.
Qed.

(** never reset: NaN *)
Record blind (c : collector) (n : nat) : Prop := {
  bl_count : count (sdata c) = n; bl_avg : average (sdata c) = Nan; bl_min : minimum (sdata c) = Nan;
  bl_max : maximum (sdata c) = Nan; bl_std : std_dev (sdata c) = Nan }.

Record inv (w : window) (x : world) : Prop := {
  iv_limit : threshold (publ x) = limit w;
  iv_shows : was_reset w = true -> shows (samples w) (coll x);
  iv_blind : was_reset w = false -> blind (coll x) (length (samples w)) }.
Lemma inv_count : forall w x, inv w x -> count (sdata (coll x)) = length (samples w).
Proof.
  intros w x [_ H1 H2]. destruct (was_reset w); [destruct (H1 eq_refl)|destruct (H2 eq_refl)]; assumption.
Qed.
Lemma inv_step : forall o w x, representable o -> inv w x -> inv (window_step o w) (step o x).
Proof.
  intros o w x Hrep I. pose proof (inv_count w x I) as Hcnt. destruct I as [Hl Hs Hb].
  destruct o as [| |v| |n|]; cbn [window_step step].
  - constructor; cbn; auto; [intros _; apply shows_reset|discriminate].
  - constructor; cbn; auto.
    + intros E. eapply shows_data; [apply Hs, E|reflexivity|reflexivity].
    + intros E. destruct (Hb E). constructor; assumption.
  - destruct v as [r| | |].
    2,3,4: constructor; cbn; auto; [intros E; eapply shows_data; [apply Hs, E|reflexivity|reflexivity]
                                   |intros E; destruct (Hb E); constructor; assumption].
    constructor.
    + exact Hl.
    + cbn [was_reset samples coll]. intros E. apply shows_add; auto.
    + cbn [was_reset samples coll]. intros E. destruct (Hb E) as [B1 B2 B3 B4 B5]. rewrite app_length, Nat.add_1_r.
      constructor; cbn [add sdata count average minimum maximum std_dev].
      * now rewrite B1.
      * now rewrite B2.
      * now rewrite B3.
      * now rewrite B4.
      * rewrite B2. cbn. destruct (sumsq (coll x)); reflexivity.
  - unfold publish. rewrite Hcnt, Hl.
    set (p' := match length (samples w) with O => publ x | S _ => _ end).
    assert (E : threshold p' = limit w) by (unfold p'; destruct (length (samples w)); [assumption|first [assumption|reflexivity]]).
    clearbody p'.
    destruct (N.leb (limit w) (N.of_nat (length (samples w)))); constructor; cbn [publ coll threshold was_reset samples limit]; auto.
    + intros _. apply shows_reset.
    + discriminate.
  - constructor; cbn; auto.
  - constructor; cbn; auto.
Qed.
Lemma inv_run : forall os w x, Forall representable os -> inv w x ->
  inv (fold_left (fun w o => window_step o w) os w) (run os x).
Proof.
  induction os as [|o os IH]; intros w x Hr I; [exact I|]. inversion Hr; subst. cbn. apply IH; [assumption|].
  now apply inv_step.
Qed.
Lemma inv_start : inv {| samples := []; was_reset := false; limit := 4294967295 |} start.
Proof. constructor; [reflexivity|discriminate|intros _; constructor; reflexivity]. Qed.
Lemma inv_all : forall os, Forall representable os -> inv (window_of os) (run os start).
Proof. intros. apply inv_run; [assumption|apply inv_start]. Qed.

Lemma main_statistics : forall os, Forall representable os -> was_reset (window_of os) = true ->
  count (sdata (coll (run os start))) = length (samples (window_of os)) /\
  (samples (window_of os) <> [] -> statistics_of (samples (window_of os)) (sdata (coll (run os start)))).
Proof.
  intros os Hr E. pose proof (inv_all os Hr) as I. split; [now apply inv_count|]. intros Hne.
  apply shows_statistics; [assumption|]. now apply I.
Qed.
Lemma main_never_reset : forall os, Forall representable os -> was_reset (window_of os) = false ->
  let d := sdata (coll (run os start)) in
  count d = length (samples (window_of os)) /\ average d = Nan /\ minimum d = Nan /\ maximum d = Nan /\ std_dev d = Nan.
Proof. intros os Hr E. destruct (iv_blind _ _ (inv_all os Hr) E). cbn. auto. Qed.
Lemma run_app : forall a b w, run (a ++ b) w = run b (run a w).
Proof. intros. unfold run. apply fold_left_app. Qed.
Lemma main_published : forall os, Forall representable os -> was_reset (window_of os) = true -> samples (window_of os) <> [] ->
  let w := run (os ++ [Publish]) start in
  statistics_of (samples (window_of os)) (pdata (publ w)) /\ pcurrent (publ w) = current (coll (run os start)).
Proof.
  intros os Hr E Hne. rewrite run_app. cbn. unfold publish.
  pose proof (main_statistics os Hr E) as [Hc Hst]. specialize (Hst Hne).
  rewrite Hc. destruct (samples (window_of os)) as [|x xs] eqn:Ex; [congruence|].
  cbn. auto.
Qed.
Lemma main_unpublished : forall os o, o <> Publish -> o <> ResetPublished ->
  pdata (publ (run (os ++ [o]) start)) = pdata (publ (run os start)) /\
  pcurrent (publ (run (os ++ [o]) start)) = pcurrent (publ (run os start)).
Proof. intros os o H1 H2. rewrite run_app. destruct o; cbn; auto; congruence. Qed.
Lemma main_current : forall os o, o <> Publish -> current (coll (run (os ++ [o]) start)) = current_step o (current (coll (run os start))).
Proof. intros os o H. rewrite run_app. destruct o as [| |[]| | |]; cbn; auto; congruence. Qed.
