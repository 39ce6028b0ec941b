(** MockMode.v -- the mode switch of the mock system (C50). *)
From Coq Require Import List Bool String Ascii Arith NArith ZArith SpecFloat Lia.
Import ListNotations.
From Verif Require Import Base LimitsModel MockModel MockSpec MockProofs MockMain.
Open Scope string_scope.
Open Scope list_scope.
Open Scope nat_scope.

Definition modes3 : list name := [HW_POS; HW_VEL; HW_ACC].
Lemma ns_mode i : In i modes3 -> no_slash i.
Proof. intros [<-|[<-|[<-|[]]]]; [exact ns_pos|exact ns_vel|exact ns_acc]. Qed.
Lemma mode_key_inj j j' i i' : In i modes3 -> In i' modes3 -> full (j, i) = full (j', i') -> j = j' /\ i = i'.
Proof. intros A B. apply full_inj; apply ns_mode; assumption. Qed.
Lemma mode_names_in m i : In (m, i) mode_names -> In i modes3.
Proof. intros [E|[E|[E|[]]]]; injection E as <- <-; cbn; auto. Qed.
Lemma prefix_app a b : prefix a (a ++ b)%string = true.
Proof. induction a as [|c a IH]; cbn; [destruct b; reflexivity|]. destruct (ascii_dec c c); [exact IH|congruence]. Qed.
Lemma contains_prefix a b : contains (a ++ b)%string a = true.
Proof.
  unfold contains. destruct (a ++ b)%string as [|c s] eqn:E.
  - destruct a; [reflexivity|discriminate].
  - destruct a as [|c' a']; [reflexivity|]. pose proof (prefix_app (String c' a') b) as P. rewrite E in P.
    cbn in P |- *. destruct (ascii_dec c' c); [|discriminate]. rewrite P. reflexivity.
Qed.
Lemma find_joint_spec joints key n0 n j : find_joint joints key n0 = Some (n, j) ->
  n0 <= n /\ nth_error joints (n - n0) = Some j /\ contains key j = true.
Proof.
  revert n0. induction joints as [|x l IH]; intros n0 H; cbn in H; [discriminate|].
  destruct (contains key x) eqn:C.
  - injection H as <- <-. rewrite Nat.sub_diag. auto.
  - destruct (IH (S n0) H) as (A&B&D). split; [lia|]. split; [|exact D].
    replace (n - n0) with (S (n - S n0)) by lia. exact B.
Qed.
Lemma find_joint_found joints key n0 j k : nth_error joints k = Some j -> contains key j = true ->
  (forall j', In j' joints -> contains key j' = true -> j' = j) -> NoDup joints -> find_joint joints key n0 = Some (n0 + k, j).
Proof.
  revert n0 k. induction joints as [|x l IH]; intros n0 k E C U ND; cbn.
  - destruct k; discriminate E.
  - inversion ND as [|? ? NI ND']; subst. destruct (contains key x) eqn:CX.
    + assert (x = j) by (apply U; [left; reflexivity|exact CX]). subst x. destruct k as [|k]; [rewrite Nat.add_0_r; reflexivity|].
      exfalso. apply NI. cbn in E. exact (nth_error_In _ _ E).
    + destruct k as [|k]; [cbn in E; injection E as ->; congruence|]. cbn in E.
      rewrite (IH (S n0) k E C (fun j' I0 => U j' (or_intror I0)) ND'). f_equal. f_equal. lia.
Qed.
Lemma find_mode_key joints j i n : distinguishable joints -> In i modes3 -> nth_error joints n = Some j ->
  find_joint joints (full (j, i)) 0 = Some (n, j).
Proof.
  intros [ND U] Ii E. apply (find_joint_found joints (full (j, i)) 0 j n E); [apply contains_prefix| |exact ND].
  intros j' Ij'. apply (U j j' i (nth_error_In _ _ E) Ij' Ii).
Qed.
Lemma set_mode_nth l i f n : nth_error (set_mode l i f) n = if Nat.eqb n i then option_map f (nth_error l n) else nth_error l n.
Proof. revert i n. induction l as [|x l IH]; intros [|i] [|n]; cbn; try reflexivity; [destruct (Nat.eqb n i); reflexivity|apply IH]. Qed.
Lemma map_nth_nth l i f n : nth_error (map_nth l i f) n = if Nat.eqb n i then option_map f (nth_error l n) else nth_error l n.
Proof. revert i n. induction l as [|x l IH]; intros [|i] [|n]; cbn; try reflexivity; [destruct (Nat.eqb n i); reflexivity|apply IH]. Qed.

(** *** only the joint of that name *)
Lemma mode_of_spec j key m : mode_of j key m = m \/ exists i, In (mode_of j key m, i) mode_names /\ key = full (j, i).
Proof.
  unfold mode_of. destruct (String.eqb_spec key (full (j, HW_ACC))) as [A|A]; [right; exists HW_ACC; cbn; auto|].
  destruct (String.eqb_spec key (full (j, HW_VEL))) as [B|B]; [right; exists HW_VEL; cbn; auto|].
  destruct (String.eqb_spec key (full (j, HW_POS))) as [C|C]; [right; exists HW_POS; cbn; auto|]. left. reflexivity.
Qed.
Lemma perf1_spec joints modes key n j m : nth_error joints n = Some j -> nth_error modes n = Some m ->
  exists m', nth_error (perf1 joints modes key) n = Some m' /\ (m' = m \/ exists i, In (m', i) mode_names /\ key = full (j, i)).
Proof.
  intros E M. unfold perf1. destruct (find_joint joints key 0) as [[n' j']|] eqn:FJ; [|exists m; auto].
  rewrite set_mode_nth, M. destruct (Nat.eqb_spec n n') as [->|N]; [|exists m; auto].
  destruct (find_joint_spec _ _ _ _ _ FJ) as (_&X&_). rewrite Nat.sub_0_r, E in X. injection X as <-. cbn.
  eexists; split; [reflexivity|]. apply mode_of_spec.
Qed.
Lemma perf_spec joints keys : forall modes n j m, nth_error joints n = Some j -> nth_error modes n = Some m ->
  exists m', nth_error (fold_left (perf1 joints) keys modes) n = Some m' /\
    (m' = m \/ exists i, In (m', i) mode_names /\ asks j i keys).
Proof.
  induction keys as [|key keys IH]; intros modes n j m E M; cbn [fold_left]; [exists m; auto|].
  destruct (perf1_spec joints modes key n j m E M) as (m1&M1&H1). destruct (IH _ n j m1 E M1) as (m'&M'&H').
  exists m'. split; [exact M'|]. destruct H' as [->|(i&A&B)].
  - destruct H1 as [->|(i&A&->)]; [left; reflexivity|]. right. exists i. split; [exact A|left; reflexivity].
  - right. exists i. split; [exact A|right; exact B].
Qed.
Lemma main_only_named c g start n j m m' :
  nth_error (g_joints c) n = Some j -> nth_error (m_mode g) n = Some m ->
  nth_error (m_mode (perform c g start)) n = Some m' -> m' <> m ->
  exists i, In (m', i) mode_names /\ asks j i start.
Proof.
  intros E M H N. cbn in H. destruct (g_dyn c); [|congruence].
  destruct (perf_spec (g_joints c) start _ n j m E M) as (m1&M1&[X|X]); rewrite H in M1; injection M1 as <-; [congruence|exact X].
Qed.

(** *** counting the requests for a joint *)
Definition is_mode_key (j key : name) : bool := existsb (fun i => String.eqb key (full (j, i))) modes3.
Definition nreq (j : name) (keys : list name) : nat := List.length (filter (is_mode_key j) keys).
Lemma is_mode_key_iff j key : is_mode_key j key = true <-> exists i, In i modes3 /\ key = full (j, i).
Proof.
  unfold is_mode_key. rewrite existsb_exists. split; intros (i&A&B); exists i; (split; [exact A|]).
  - apply String.eqb_eq. exact B.
  - apply String.eqb_eq. exact B.
Qed.
Definition val (x : N) : N := if N.eqb x 0 then once else x.
Lemma prep_count_val j key x : prep_count j key x = (val x + if is_mode_key j key then 1 else 0)%N.
Proof.
  unfold prep_count, is_mode_key, modes3. cbn [existsb]. fold (val x).
  assert (D : forall i i', In i modes3 -> In i' modes3 -> i <> i' -> full (j, i) <> full (j, i')).
  { intros i i' A B NE X. destruct (mode_key_inj _ _ _ _ A B X). congruence. }
  assert (D1 : full (j, HW_POS) <> full (j, HW_VEL)) by (apply D; cbn; auto; discriminate).
  assert (D2 : full (j, HW_POS) <> full (j, HW_ACC)) by (apply D; cbn; auto; discriminate).
  assert (D3 : full (j, HW_VEL) <> full (j, HW_ACC)) by (apply D; cbn; auto; discriminate).
  destruct (String.eqb_spec key (full (j, HW_POS))) as [A|A]; destruct (String.eqb_spec key (full (j, HW_VEL))) as [B|B];
    destruct (String.eqb_spec key (full (j, HW_ACC))) as [C|C]; try congruence; cbn [orb]; try reflexivity;
    rewrite ?N.add_0_r; reflexivity.
Qed.
Lemma val_le x : (x <= val x)%N.
Proof. unfold val. destruct (N.eqb_spec x 0) as [->|N]; [unfold once|]; lia. Qed.
Lemma count_ge joints n j : distinguishable joints -> nth_error joints n = Some j ->
  forall keys cnt x, nth_error cnt n = Some x ->
  exists y, nth_error (fold_left (prep1 joints) keys cnt) n = Some y /\ (x <= y)%N /\
    (nreq j keys <> 0 -> (val x + N.of_nat (nreq j keys) <= y)%N).
Proof.
  intros DI E. induction keys as [|key keys IH]; intros cnt x X; cbn [fold_left].
  - exists x. split; [exact X|]. split; [lia|]. intros H. exfalso. apply H. reflexivity.
  - assert (S1 : exists x1, nth_error (prep1 joints cnt key) n = Some x1 /\ (x <= x1)%N /\
       (is_mode_key j key = true -> x1 = (val x + 1)%N) /\ (x1 = x \/ (val x <= x1)%N)).
    { unfold prep1. destruct (find_joint joints key 0) as [[n' j']|] eqn:FJ.
      - rewrite map_nth_nth, X. destruct (Nat.eqb_spec n n') as [->|N].
        + destruct (find_joint_spec _ _ _ _ _ FJ) as (_&Y&_). rewrite Nat.sub_0_r, E in Y. injection Y as <-. cbn [option_map].
          rewrite prep_count_val. pose proof (val_le x). eexists; split; [reflexivity|]. split; [destruct (is_mode_key j key); lia|].
          split; [intros ->; reflexivity|]. right. destruct (is_mode_key j key); lia.
        + exists x. split; [reflexivity|]. split; [lia|]. split; [|left; reflexivity]. intros M. exfalso. apply is_mode_key_iff in M. destruct M as (i&Ii&->).
          rewrite (find_mode_key joints j i n DI Ii E) in FJ. injection FJ as <- _. congruence.
      - exists x. split; [exact X|]. split; [lia|]. split; [|left; reflexivity]. intros M. exfalso. apply is_mode_key_iff in M. destruct M as (i&Ii&->).
        rewrite (find_mode_key joints j i n DI Ii E) in FJ. discriminate. }
    destruct S1 as (x1&X1&L1&M1&V1). destruct (IH _ x1 X1) as (y&Y&LY&NY). exists y. split; [exact Y|]. split; [lia|].
    unfold nreq in *. cbn [filter]. pose proof (val_le x1) as V. destruct (is_mode_key j key) eqn:MK.
    + intros _. specialize (M1 eq_refl). cbn [List.length]. destruct (Nat.eq_dec (List.length (filter (is_mode_key j) keys)) 0) as [Z0|Z0].
      * rewrite Z0. lia.
      * specialize (NY Z0). lia.
    + intros H. specialize (NY H). destruct V1 as [->|V1]; lia.
Qed.
Lemma prepare_one c start n j : g_dyn c = true -> distinguishable (g_joints c) -> nth_error (g_joints c) n = Some j ->
  prepare c start = true -> nreq j start <= 1.
Proof.
  intros D DI E P. unfold prepare in P. rewrite D in P.
  assert (X : nth_error (repeat 0%N (List.length (g_joints c))) n = Some 0%N).
  { rewrite nth_error_repeat; [reflexivity|]. apply nth_error_Some. congruence. }
  destruct (count_ge _ n j DI E start _ _ X) as (y&Y&_&H).
  rewrite forallb_forall in P. specialize (P y (nth_error_In _ _ Y)). apply andb_true_iff in P. destruct P as [_ P].
  apply negb_true_iff in P. apply N.ltb_ge in P.
  destruct (Nat.eq_dec (nreq j start) 0) as [Z0|Z0]; [lia|]. specialize (H Z0). change (val 0) with once in H. generalize dependent once. intros; lia.
Qed.
Lemma nreq_unique j keys i i' : nreq j keys <= 1 -> In i modes3 -> In i' modes3 -> asks j i keys -> asks j i' keys -> i = i'.
Proof.
  unfold nreq, asks. intros L Ii Ii' A B.
  assert (FA : In (full (j, i)) (filter (is_mode_key j) keys)) by (apply filter_In; split; [exact A|apply is_mode_key_iff; eauto]).
  assert (FB : In (full (j, i')) (filter (is_mode_key j) keys)) by (apply filter_In; split; [exact B|apply is_mode_key_iff; eauto]).
  destruct (filter (is_mode_key j) keys) as [|x [|y l]]; [destruct FA| |cbn in L; lia].
  destruct FA as [FA|[]], FB as [FB|[]]. rewrite FA in FB. destruct (mode_key_inj _ _ _ _ Ii Ii' FB) as [_ H]. exact H.
Qed.
Lemma mode_names_fun m m' i : In (m, i) mode_names -> In (m', i) mode_names -> m = m'.
Proof.
  intros [E|[E|[E|[]]]]; injection E as <- <-; intros [E|[E|[E|[]]]]; try discriminate E; injection E as <-; reflexivity.
Qed.
Lemma mode_of_key j i m m0 : In (m, i) mode_names -> mode_of j (full (j, i)) m0 = m.
Proof.
  assert (D : forall i i', In i modes3 -> In i' modes3 -> i <> i' -> String.eqb (full (j, i)) (full (j, i')) = false).
  { intros a b A B NE. apply String.eqb_neq. intros X. destruct (mode_key_inj _ _ _ _ A B X). congruence. }
  assert (D1 : String.eqb (full (j, HW_POS)) (full (j, HW_VEL)) = false) by (apply D; cbn; auto; discriminate).
  assert (D2 : String.eqb (full (j, HW_POS)) (full (j, HW_ACC)) = false) by (apply D; cbn; auto; discriminate).
  assert (D3 : String.eqb (full (j, HW_VEL)) (full (j, HW_ACC)) = false) by (apply D; cbn; auto; discriminate).
  unfold mode_of. intros [E|[E|[E|[]]]]; injection E as <- <-; rewrite ?D1, ?D2, ?D3, ?String.eqb_refl; reflexivity.
Qed.
Lemma perf_sets joints n j i m : distinguishable joints -> nth_error joints n = Some j -> In (m, i) mode_names ->
  forall keys, (forall i', In i' modes3 -> asks j i' keys -> i' = i) ->
  forall modes m0, nth_error modes n = Some m0 -> (m0 = m \/ asks j i keys) ->
  nth_error (fold_left (perf1 joints) keys modes) n = Some m.
Proof.
  intros DI E IM. induction keys as [|key keys IH]; intros U modes m0 M H; cbn [fold_left].
  - destruct H as [->|[]]. exact M.
  - destruct (perf1_spec joints modes key n j m0 E M) as (m1&M1&H1).
    apply (IH (fun i' A B => U i' A (or_intror B)) _ m1 M1).
    destruct H1 as [->|(i'&A&EQ)].
    + destruct H as [->|[EQ|H]]; [left; reflexivity| |right; exact H].
      left. subst key. unfold perf1 in M1. rewrite (find_mode_key joints j i n DI (mode_names_in _ _ IM) E), set_mode_nth, M, Nat.eqb_refl in M1.
      cbn [option_map] in M1. injection M1 as <-. apply mode_of_key. exact IM.
    + left. assert (i' = i) by (apply U; [exact (mode_names_in _ _ A)|left; exact EQ]). subst i'. exact (mode_names_fun _ _ _ A IM).
Qed.
Lemma main_mode_set c g start n j i m : g_dyn c = true -> distinguishable (g_joints c) ->
  List.length (m_mode g) = List.length (g_joints c) ->
  nth_error (g_joints c) n = Some j -> In (m, i) mode_names -> asks j i start -> prepare c start = true ->
  nth_error (m_mode (perform c g start)) n = Some m.
Proof.
  intros D DI L E IM A P. cbn. rewrite D.
  destruct (nth_error (m_mode g) n) as [m0|] eqn:M; [|apply nth_error_None in M; assert (X : n < List.length (g_joints c)) by (apply nth_error_Some; congruence); lia].
  eapply perf_sets; [exact DI|exact E|exact IM| |exact M|right; exact A].
  intros i' Ii' A'. exact (nreq_unique j start i' i (prepare_one c start n j D DI E P) Ii' (mode_names_in _ _ IM) A' A).
Qed.
Lemma main_conflict c start n j i i' : g_dyn c = true -> distinguishable (g_joints c) -> nth_error (g_joints c) n = Some j ->
  In i modes3 -> In i' modes3 -> i <> i' -> asks j i start -> asks j i' start -> prepare c start = false.
Proof.
  intros D DI E A B NE X Y. destruct (prepare c start) eqn:P; [|reflexivity]. exfalso. apply NE.
  exact (nreq_unique j start i i' (prepare_one c start n j D DI E P) A B X Y).
Qed.
