(** DiagProofs.v -- proofs about the diagnostics. *)
From Coq Require Import QArith Qabs NArith Lia Bool.
From Verif Require Import Base Events DiagModel DiagSpec.
Open Scope string_scope.
Open Scope nat_scope.
Open Scope list_scope.

(** ---- numbers *)
Lemma Qlt_bool x t : negb (Qle_bool x t) = true <-> (t < x)%Q.
Proof.
  rewrite negb_true_iff. split.
  - intros H. apply Qnot_le_lt. intros C. apply Qle_bool_iff in C. congruence.
  - intros H. destruct (Qle_bool x t) eqn:E; [|reflexivity]. apply Qle_bool_iff in E. exfalso. exact (Qlt_not_le _ _ H E).
Qed.
Lemma gt_above x t : num_gt x t = true <-> above x t.
Proof. destruct x; cbn [num_gt above]; [apply Qlt_bool|tauto| |]; split; (discriminate || contradiction). Qed.
Lemma abs_gt (x t : Q) : (t < Qabs x)%Q <-> (x < - t \/ t < x)%Q.
Proof.
  split.
  - intros H. destruct (Qlt_le_dec t x) as [A|A]; [right; exact A|]. left.
    apply Qnot_le_lt. intros C. apply (Qlt_not_le _ _ H). apply Qabs_Qle_condition. split; assumption.
  - intros H. apply Qnot_le_lt. intros C. apply Qabs_Qle_condition in C. destruct C as [C1 C2].
    destruct H as [H|H]; [exact (Qlt_not_le _ _ H C1)|exact (Qlt_not_le _ _ H C2)].
Qed.
Lemma lt_sub (q r t : Q) : (t < q - r)%Q <-> (r + t < q)%Q.
Proof.
  split; intros H.
  - apply (Qplus_lt_l _ _ (- r)). setoid_replace (r + t + - r)%Q with t by ring. exact H.
  - apply (Qplus_lt_l _ _ r). setoid_replace (q - r + r)%Q with q by ring. setoid_replace (t + r)%Q with (r + t)%Q by ring. exact H.
Qed.
Lemma lt_sub2 (q r t : Q) : (q - r < - t)%Q <-> (q < r - t)%Q.
Proof.
  split; intros H.
  - apply (Qplus_lt_l _ _ (- r)). setoid_replace (r - t + - r)%Q with (- t)%Q by ring. exact H.
  - apply (Qplus_lt_l _ _ r). setoid_replace (q - r + r)%Q with q by ring. setoid_replace (- t + r)%Q with (r - t)%Q by ring. exact H.
Qed.
Lemma gt_off x r t : num_gt (num_abs (num_sub x (of_rate r))) t = true <-> off_rate x r t.
Proof.
  unfold of_rate. destruct x; cbn [num_sub num_abs num_gt off_rate]; try tauto; [|split; (discriminate || contradiction)].
  rewrite Qlt_bool, abs_gt, lt_sub, lt_sub2. tauto.
Qed.
Lemma gt_over x a r t : num_gt (num_sub x (max_exec a r)) t = true <-> over_time x a r t.
Proof.
  unfold max_exec, period_us. destruct a.
  - destruct r as [|p]; destruct x; cbn [num_sub num_gt over_time]; try (split; (discriminate || contradiction)).
    + split; [discriminate|]. intros [H|H]; [discriminate H|contradiction].
    + rewrite Qlt_bool, lt_sub. tauto.
    + split; [|reflexivity]. intros _. right. discriminate.
  - destruct x; cbn [num_sub num_gt over_time]; try (split; (discriminate || contradiction)).
    + rewrite Qlt_bool, lt_sub. setoid_replace (0 + t)%Q with t by ring. tauto.
    + split; [|reflexivity]. intros _. left. reflexivity.
Qed.
Lemma verdict_error t err sd : verdict t err sd = ERROR <-> num_gt err (mean_err t) = true \/ num_gt sd (sd_err t) = true.
Proof.
  unfold verdict. rewrite <- orb_true_iff. destruct (num_gt err (mean_err t) || num_gt sd (sd_err t)); [tauto|].
  destruct (_ || _); split; discriminate.
Qed.
Lemma verdict_flag t err sd : verdict t err sd <> OK <->
  (num_gt err (mean_err t) = true \/ num_gt sd (sd_err t) = true) \/ (num_gt err (mean_warn t) = true \/ num_gt sd (sd_warn t) = true).
Proof.
  unfold verdict. rewrite <- !orb_true_iff. destruct (num_gt err (mean_err t) || num_gt sd (sd_err t)); cbn [orb].
  - split; [auto|discriminate].
  - destruct (_ || _); split; try tauto; try discriminate.
Qed.

(** ---- the judgements as a list *)
Definition jd := (bool * (name * level))%type.     (* execution time?, whose, verdict *)
Definition core := (level * list name * list name)%type.
Definition core_of (a : acc) : core := (a_level a, a_high a, a_bad a).
Definition run_one (s : core) (j : jd) : core :=
  let '(l, h, b) := s in
  match j with
  | (_, (_, OK)) => s
  | (true, (n, v)) => (lmax l v, h ++ [n], b)
  | (false, (n, v)) => (lmax l v, h, add_item b n)
  end.
Lemma raise_max l v : raise l v = lmax l v.
Proof. destruct l, v; reflexivity. Qed.
Definition per_level (cr : N) (t : thresholds) (a : bool) (r : N) (s : dstats) : level :=
  if a || negb (N.eqb r cr) then verdict (t_per t) (num_abs (num_sub (s_avg s) (of_rate r))) (s_sd s) else OK.
Definition exec_level (t : thresholds) (a : bool) (r : N) (s : dstats) : level :=
  verdict (t_exec t) (num_sub (s_avg s) (max_exec a r)) (s_sd s).
Definition js_ctrl (cr : N) (t : thresholds) (c : dctrl) : list jd :=
  if is_active (dc_lc c) then
    [(false, (dc_name c, per_level cr t (dc_async c) (dc_rate c) (dc_per c)));
     (true, (dc_name c, exec_level t (dc_async c) (dc_rate c) (dc_exec c)))] else [].
Definition js_cycle (cr : N) (t : thresholds) (h : dhw) (y : option dcycle) : list jd :=
  match y with
  | None => []
  | Some y => [(false, (dh_name h, per_level cr t (dh_async h) (dh_rate h) (cy_per y)));
               (true, (dh_name h, exec_level t (dh_async h) (dh_rate h) (cy_exec y)))]
  end.
Definition js_hw (cr : N) (t : thresholds) (h : dhw) : list jd :=
  if is_active (dh_lc h) then js_cycle cr t h (dh_read h) ++ js_cycle cr t h (dh_write h) else [].

Lemma core_with a k v : core_of (with_stat a k v) = core_of a. Proof. reflexivity. Qed.
Lemma core_per t n r s a : core_of (judge_per t n r s a) = run_one (core_of a) (false, (n, verdict t (num_abs (num_sub (s_avg s) (of_rate r))) (s_sd s))).
Proof. unfold judge_per. destruct (verdict _ _ _); cbn [core_of run_one a_level a_high a_bad]; rewrite ?raise_max; reflexivity. Qed.
Lemma core_exec t n i r s a : core_of (judge_exec t n i r s a) = run_one (core_of a) (true, (n, verdict t (num_sub (s_avg s) (max_exec i r)) (s_sd s))).
Proof. unfold judge_exec. destruct (verdict _ _ _); cbn [core_of run_one a_level a_high a_bad]; rewrite ?raise_max; reflexivity. Qed.
Lemma core_ctrl cr t a c : core_of (ctrl_one cr t a c) = fold_left run_one (js_ctrl cr t c) (core_of a).
Proof.
  unfold ctrl_one, js_ctrl. destruct (is_active (dc_lc c)); [|reflexivity]. cbn [fold_left]. rewrite core_exec. unfold exec_level. f_equal.
  unfold per_level. destruct (_ || _); [rewrite core_per|]; rewrite !core_with; [reflexivity|].
  destruct (core_of a) as [[l h] b]. reflexivity.
Qed.
Lemma core_cycle cr t h sfx y a : core_of (hw_cycle cr t h sfx y a) = fold_left run_one (js_cycle cr t h y) (core_of a).
Proof.
  unfold hw_cycle, js_cycle. destruct y as [y|]; [|reflexivity]. cbn [fold_left]. rewrite core_exec. unfold exec_level. f_equal.
  unfold per_level. destruct (_ || _); [rewrite core_per|]; rewrite !core_with; [reflexivity|].
  destruct (core_of a) as [[l hh] b]. reflexivity.
Qed.
Lemma core_hw cr t a h : core_of (hw_one cr t a h) = fold_left run_one (js_hw cr t h) (core_of a).
Proof.
  unfold hw_one, js_hw. destruct (is_active (dh_lc h)); [|reflexivity]. rewrite !core_cycle, core_with, fold_left_app. reflexivity.
Qed.
Lemma core_fold {A} (f : acc -> A -> acc) (js : A -> list jd) : (forall a x, core_of (f a x) = fold_left run_one (js x) (core_of a)) ->
  forall xs a, core_of (fold_left f xs a) = fold_left run_one (flat_map js xs) (core_of a).
Proof.
  intros H. induction xs as [|x xs IH]; intros a; [reflexivity|]. cbn [fold_left flat_map]. rewrite IH, H, fold_left_app. reflexivity.
Qed.

(** ---- what the list says *)
Definition worst (js : list jd) : level := fold_left (fun (l : level) (j : jd) => lmax l (snd (snd j))) js OK.
Definition flagged (k : bool) (js : list jd) : list name :=
  flat_map (fun j : jd => if Bool.eqb (fst j) k then match snd (snd j) with OK => [] | _ => [fst (snd j)] end else []) js.
Lemma run_result js : forall l h b, fold_left run_one js (l, h, b) =
  (fold_left (fun (l : level) (j : jd) => lmax l (snd (snd j))) js l, h ++ flagged true js, fold_left add_item (flagged false js) b).
Proof.
  induction js as [|[k [n v]] js IH]; intros l h b; cbn [fold_left flagged flat_map]; [rewrite app_nil_r; reflexivity|].
  fold (flagged true js). fold (flagged false js). cbn [fst snd run_one].
  destruct v, k; cbn [run_one Bool.eqb app]; rewrite IH; cbn [fold_left]; rewrite <- ?app_assoc; cbn [app]; try reflexivity;
    replace (lmax l OK) with l by (destruct l; reflexivity); reflexivity.
Qed.
Lemma lmax_error a b : lmax a b = ERROR <-> a = ERROR \/ b = ERROR.
Proof. destruct a, b; cbn; split; try tauto; try (intros [H|H]; discriminate); intros H; discriminate. Qed.
Lemma lmax_flag a b : lmax a b <> OK <-> a <> OK \/ b <> OK.
Proof. destruct a, b; cbn; split; intros H; try tauto; try (left; discriminate); try (right; discriminate); try discriminate; destruct H as [H|H]; exact H. Qed.
Lemma worst_gen js : forall l, (fold_left (fun (l : level) (j : jd) => lmax l (snd (snd j))) js l = ERROR <-> l = ERROR \/ exists j, In j js /\ snd (snd j) = ERROR) /\
  (fold_left (fun (l : level) (j : jd) => lmax l (snd (snd j))) js l <> OK <-> l <> OK \/ exists j, In j js /\ snd (snd j) <> OK).
Proof.
  induction js as [|j js IH]; intros l; cbn [fold_left].
  - split; (split; [auto|intros [H|(j & [] & _)]; exact H]).
  - destruct (IH (lmax l (snd (snd j)))) as [A B]. rewrite A, B, lmax_error, lmax_flag. split; split.
    + intros [[H|H]|(x & Hx & E)]; [left; exact H|right; exists j; split; [left; reflexivity|exact H]|right; exists x; split; [right; exact Hx|exact E]].
    + intros [H|(x & [<-|Hx] & E)]; [left; left; exact H|left; right; exact E|right; exists x; split; assumption].
    + intros [[H|H]|(x & Hx & E)]; [left; exact H|right; exists j; split; [left; reflexivity|exact H]|right; exists x; split; [right; exact Hx|exact E]].
    + intros [H|(x & [<-|Hx] & E)]; [left; left; exact H|left; right; exact E|right; exists x; split; assumption].
Qed.
Lemma worst_error js : worst js = ERROR <-> exists j, In j js /\ snd (snd j) = ERROR.
Proof. destruct (worst_gen js OK) as [A _]. unfold worst. rewrite A. split; [intros [H|H]; [discriminate|exact H]|auto]. Qed.
Lemma worst_flag js : worst js <> OK <-> exists j, In j js /\ snd (snd j) <> OK.
Proof. destruct (worst_gen js OK) as [_ A]. unfold worst. rewrite A. split; [intros [H|H]; [contradiction|exact H]|auto]. Qed.
Lemma flagged_in k js n : In n (flagged k js) <-> exists v, In (k, (n, v)) js /\ v <> OK.
Proof.
  unfold flagged. rewrite in_flat_map. split.
  - intros ([k' [n' v]] & Hj & Hn). cbn [fst snd] in Hn. destruct (Bool.eqb_spec k' k) as [->|_]; [|destruct Hn].
    destruct v; [destruct Hn| |]; destruct Hn as [<-|[]]; eexists; (split; [exact Hj|discriminate]).
  - intros (v & Hj & Hv). exists (k, (n, v)). split; [exact Hj|]. cbn [fst snd]. rewrite Bool.eqb_reflx. destruct v; [contradiction| |]; left; reflexivity.
Qed.
Lemma flagged_empty js : (flagged true js = [] /\ flagged false js = []) <-> worst js = OK.
Proof.
  split.
  - intros [A B]. destruct (worst js) eqn:E; [reflexivity| |]; exfalso;
    (assert (F : worst js <> OK) by (rewrite E; discriminate); apply worst_flag in F; destruct F as ([k [n v]] & Hj & Hv); cbn [snd] in Hv;
     assert (G : In n (flagged k js)) by (apply flagged_in; exists v; split; assumption); destruct k; [rewrite A in G|rewrite B in G]; destruct G).
  - intros E. assert (G : forall k, flagged k js = []).
    { intros k. destruct (flagged k js) as [|n l] eqn:F; [reflexivity|]. exfalso.
      assert (I : In n (flagged k js)) by (rewrite F; left; reflexivity). apply flagged_in in I. destruct I as (v & Hj & Hv).
      assert (X : worst js <> OK) by (apply worst_flag; exists (k, (n, v)); split; [exact Hj|exact Hv]). contradiction. }
    split; apply G.
Qed.
(** add_item keeps the first of each *)
Lemma add_items_in ns : forall b n, In n (fold_left add_item ns b) <-> In n b \/ In n ns.
Proof.
  induction ns as [|x ns IH]; intros b n; cbn [fold_left]; [cbn [In]; tauto|]. rewrite IH. unfold add_item. destruct (mem x b) eqn:M.
  - apply mem_In in M. cbn [In]. split; [intros [H|H]; auto|]. intros [H|[<-|H]]; auto.
  - rewrite in_app_iff. cbn [In]. tauto.
Qed.
Lemma add_items_nodup ns : forall b, NoDup b -> NoDup (fold_left add_item ns b).
Proof.
  induction ns as [|x ns IH]; intros b H; cbn [fold_left]; [exact H|]. apply IH. unfold add_item. destruct (mem x b) eqn:M; [exact H|].
  apply mem_false in M.
  apply NoDup_rev in H. rewrite <- (rev_involutive (b ++ [x])). apply NoDup_rev. rewrite rev_app_distr. cbn [rev app]. constructor; [|exact H].
  intros C. apply M. apply in_rev. exact C.
Qed.

(** ---- the report *)
Notation texts := remarks.
Lemma high_ne h : high_text h <> "". Proof. unfold high_text, named, nl. cbn [String.append]. discriminate. Qed.
Lemma bad_ne h : bad_text h <> "". Proof. unfold bad_text, named, nl. cbn [String.append]. discriminate. Qed.
Lemma merge_ok s l m : st_level s = OK -> l <> OK -> merge_summary s l m = {| st_level := l; st_msg := m; st_values := st_values s |}.
Proof. intros E N. unfold merge_summary. rewrite E. destruct l; [contradiction| |]; reflexivity. Qed.
Lemma merge_more s l m : st_level s <> OK -> st_msg s <> "" -> l <> OK ->
  merge_summary s l m = {| st_level := lmax (st_level s) l; st_msg := (st_msg s ++ "; " ++ m)%string; st_values := st_values s |}.
Proof.
  intros E M N. unfold merge_summary. destruct (String.eqb_spec (st_msg s) "") as [C|_]; [contradiction|].
  destruct (st_level s), l; try contradiction; reflexivity.
Qed.
(** merging the two lists: level [l], lists not both empty exactly when the level is not OK *)
Lemma merge_lists_spec a s : st_level s = OK -> (a_level a = OK <-> a_high a = [] /\ a_bad a = []) ->
  merge_lists a s = {| st_level := a_level a;
    st_msg := match texts (a_high a) (a_bad a) with [] => st_msg s | ts => joined ts end; st_values := st_values s |}.
Proof.
  intros E H. unfold merge_lists, remarks. destruct (a_level a) eqn:L.
  - destruct (proj1 H eq_refl) as [-> ->]. cbn [app]. destruct s; cbn in *. subst. reflexivity.
  - destruct (a_high a) as [|x h] eqn:EH; destruct (a_bad a) as [|y b] eqn:EB; cbn [app joined].
    + destruct H as [_ H]. discriminate (H (conj eq_refl eq_refl)).
    + apply merge_ok; [exact E|discriminate].
    + apply merge_ok; [exact E|discriminate].
    + rewrite (merge_ok s) by (try exact E; discriminate). rewrite merge_more; cbn [st_level st_msg]; [reflexivity|discriminate|apply high_ne|discriminate].
  - destruct (a_high a) as [|x h] eqn:EH; destruct (a_bad a) as [|y b] eqn:EB; cbn [app joined].
    + destruct H as [_ H]. discriminate (H (conj eq_refl eq_refl)).
    + apply merge_ok; [exact E|discriminate].
    + apply merge_ok; [exact E|discriminate].
    + rewrite (merge_ok s) by (try exact E; discriminate). rewrite merge_more; cbn [st_level st_msg]; [reflexivity|discriminate|apply high_ne|discriminate].
Qed.
Lemma str_app_nil (x y : string) : (x ++ y)%string = "" -> x = "" /\ y = "".
Proof. destruct x; [auto|discriminate]. Qed.
Lemma joined_ne ts x : In x ts -> (forall y, In y ts -> y <> "") -> joined ts <> "".
Proof.
  destruct ts as [|a [|b ts]]; intros I H; [destruct I|apply H; left; reflexivity|]. cbn [joined]. intros C. apply str_app_nil in C. destruct C as [C _].
  apply (H a (or_introl eq_refl) C).
Qed.
Lemma texts_ne h b y : In y (texts h b) -> y <> "".
Proof. unfold remarks. rewrite in_app_iff. destruct h, b; intros [H|H]; try (destruct H as [<-|[]]); try contradiction; try apply high_ne; apply bad_ne. Qed.
Lemma str_app_assoc (x y z : string) : ((x ++ y) ++ z)%string = (x ++ (y ++ z))%string.
Proof. induction x as [|c x IH]; [reflexivity|]. cbn [String.append]. rewrite IH. reflexivity. Qed.
Lemma joined_snoc ts m : ts <> [] -> joined (ts ++ [m]) = (joined ts ++ "; " ++ m)%string.
Proof.
  intros H. induction ts as [|a [|b ts] IH]; [contradiction|reflexivity|]. cbn [app joined] in *. rewrite IH by discriminate.
  rewrite !str_app_assoc. reflexivity.
Qed.
(** one more text *)
Lemma merge_extra a s m l : st_level s = OK -> (a_level a = OK <-> a_high a = [] /\ a_bad a = []) -> l <> OK ->
  merge_summary (merge_lists a s) l m =
  {| st_level := lmax (a_level a) l; st_msg := joined (texts (a_high a) (a_bad a) ++ [m]); st_values := st_values s |}.
Proof.
  intros E H N. rewrite (merge_lists_spec a s E H). destruct (texts (a_high a) (a_bad a)) as [|x ts] eqn:T.
  - assert (L : a_level a = OK).
    { apply H. unfold remarks in T. destruct (a_high a); [|discriminate]. destruct (a_bad a); [auto|discriminate]. }
    rewrite L, merge_ok by (try exact N; reflexivity). cbn [app joined st_values]. destruct l; [contradiction| |]; reflexivity.
  - assert (L : a_level a <> OK).
    { intros C. apply H in C. destruct C as [C1 C2]. rewrite C1, C2 in T. discriminate T. }
    rewrite merge_more; cbn [st_level st_msg st_values]; [|exact L| |exact N].
    + rewrite joined_snoc by discriminate. reflexivity.
    + eapply joined_ne; [left; reflexivity|]. intros y Hy. rewrite <- T in Hy. eapply texts_ne. exact Hy.
Qed.
Lemma core_eq a l h b : core_of a = (l, h, b) -> a_level a = l /\ a_high a = h /\ a_bad a = b.
Proof. unfold core_of. intros [= A B C]. auto. Qed.
Lemma consistent js : worst js = OK <-> flagged true js = [] /\ fold_left add_item (flagged false js) [] = [].
Proof.
  rewrite <- flagged_empty. split; intros [A B]; (split; [exact A|]).
  - rewrite B. reflexivity.
  - destruct (flagged false js) as [|n l] eqn:F; [reflexivity|]. exfalso. assert (I : In n (fold_left add_item (n :: l) [])) by (apply add_items_in; right; left; reflexivity).
    rewrite B in I. destruct I.
Qed.

(** ---- judgements and the specification *)
Lemma own_paceb a r cr : a || negb (N.eqb r cr) = true <-> own_pace a r cr.
Proof.
  unfold own_pace. rewrite orb_true_iff, negb_true_iff, N.eqb_neq. tauto.
Qed.
Lemma per_level_error cr t a r s : per_level cr t a r s = ERROR <-> per_error cr t a r s.
Proof.
  unfold per_level, per_error, per_beyond. rewrite <- own_paceb. destruct (a || negb (N.eqb r cr)).
  - rewrite verdict_error, gt_off, gt_above. tauto.
  - split; [discriminate|intros [C _]; discriminate].
Qed.
Lemma per_level_flag cr t a r s : per_level cr t a r s <> OK <-> per_error cr t a r s \/ per_warn cr t a r s.
Proof.
  unfold per_level, per_error, per_warn, per_beyond. rewrite <- own_paceb. destruct (a || negb (N.eqb r cr)).
  - rewrite verdict_flag, !gt_off, !gt_above. tauto.
  - split; [intros H; contradiction|intros [[C _]|[C _]]; discriminate].
Qed.
Lemma exec_level_error t a r s : exec_level t a r s = ERROR <-> exec_error t a r s.
Proof. unfold exec_level, exec_error, exec_beyond. rewrite verdict_error, gt_over, gt_above. tauto. Qed.
Lemma exec_level_flag t a r s : exec_level t a r s <> OK <-> exec_error t a r s \/ exec_warn t a r s.
Proof. unfold exec_level, exec_error, exec_warn, exec_beyond. rewrite verdict_flag, !gt_over, !gt_above. tauto. Qed.
Lemma active_iff l : is_active l = true <-> l = Active.
Proof. unfold is_active. destruct l; cbn; split; (reflexivity || discriminate). Qed.

Lemma js_ctrl_in cr t c k n v : In (k, (n, v)) (js_ctrl cr t c) <->
  dc_lc c = Active /\ n = dc_name c /\
  v = (if k then exec_level t (dc_async c) (dc_rate c) (dc_exec c) else per_level cr t (dc_async c) (dc_rate c) (dc_per c)).
Proof.
  unfold js_ctrl. rewrite <- active_iff. destruct (is_active (dc_lc c)).
  - split.
    + intros [[= <- <- <-]|[[= <- <- <-]|[]]]; auto.
    + intros (_ & -> & ->). destruct k; [right; left; reflexivity|left; reflexivity].
  - split; [intros []|intros [C _]; discriminate].
Qed.
Lemma js_hw_in cr t h k n v : In (k, (n, v)) (js_hw cr t h) <->
  dh_lc h = Active /\ n = dh_name h /\ exists y, cycle_of h y /\
  v = (if k then exec_level t (dh_async h) (dh_rate h) (cy_exec y) else per_level cr t (dh_async h) (dh_rate h) (cy_per y)).
Proof.
  assert (G : forall o, In (k, (n, v)) (js_cycle cr t h o) <-> n = dh_name h /\ exists y, o = Some y /\
    v = (if k then exec_level t (dh_async h) (dh_rate h) (cy_exec y) else per_level cr t (dh_async h) (dh_rate h) (cy_per y))).
  { intros [y|]; cbn [js_cycle].
    - split.
      + intros [[= <- <- <-]|[[= <- <- <-]|[]]]; (split; [reflexivity|exists y; auto]).
      + intros (-> & y' & [= <-] & ->). destruct k; [right; left; reflexivity|left; reflexivity].
    - split; [intros []|intros (_ & y & C & _); discriminate]. }
  unfold js_hw, cycle_of. rewrite <- active_iff. destruct (is_active (dh_lc h)).
  - rewrite in_app_iff, !G. split.
    + intros [(-> & y & E & V)|(-> & y & E & V)]; (split; [reflexivity|split; [reflexivity|exists y; auto]]).
    + intros (_ & -> & y & [E|E] & V); [left|right]; (split; [reflexivity|exists y; auto]).
  - split; [intros []|intros [C _]; discriminate].
Qed.

(** the level of a list of judgements *)
Lemma level_of l (err flag warn : Prop) : (l = ERROR <-> err) -> (l <> OK <-> flag) -> (flag <-> err \/ warn) -> level_is l err warn.
Proof.
  intros A B C. unfold level_is. destruct l.
  - assert (NF : ~ flag) by (intros F; apply B in F; apply F; reflexivity). 
    split; [exact A|]. split; split; try discriminate; try reflexivity.
    + intros [N W]. exfalso. apply NF. apply C. right. exact W.
    + intros _. split; intros X; apply NF; apply C; auto.
  - assert (NE : ~ err) by (intros F; apply A in F; discriminate). assert (F : flag) by (apply B; discriminate).
    split; [exact A|]. split; split; try discriminate; try reflexivity.
    + intros _. split; [exact NE|]. apply C in F. destruct F as [F|F]; [contradiction|exact F].
    + intros [_ N]. exfalso. apply C in F. destruct F as [F|F]; contradiction.
  - assert (E : err) by (apply A; reflexivity). split; [exact A|]. split; split; try discriminate; intros [N _]; contradiction.
Qed.
Section Reports.
Variables (cr : N) (t : thresholds).
Lemma ctrls_error cs : worst (flat_map (js_ctrl cr t) cs) = ERROR <-> exists c, In c cs /\ ctrl_error cr t c.
Proof.
  rewrite worst_error. unfold ctrl_error. split.
  - intros ([k [n v]] & Hj & E). cbn [snd] in E. apply in_flat_map in Hj. destruct Hj as (c & Hc & Hj). exists c. split; [exact Hc|].
    apply js_ctrl_in in Hj. destruct Hj as (A & _ & V). subst v. split; [exact A|]. destruct k; [right; apply exec_level_error; exact E|left; apply per_level_error; exact E].
  - intros (c & Hc & A & [E|E]).
    + exists (false, (dc_name c, ERROR)). split; [|reflexivity]. apply in_flat_map. exists c. split; [exact Hc|]. apply js_ctrl_in. apply per_level_error in E. auto.
    + exists (true, (dc_name c, ERROR)). split; [|reflexivity]. apply in_flat_map. exists c. split; [exact Hc|]. apply js_ctrl_in. apply exec_level_error in E. auto.
Qed.
Lemma ctrls_flag cs : worst (flat_map (js_ctrl cr t) cs) <> OK <-> (exists c, In c cs /\ ctrl_error cr t c) \/ (exists c, In c cs /\ ctrl_warn cr t c).
Proof.
  rewrite worst_flag. unfold ctrl_error, ctrl_warn. split.
  - intros ([k [n v]] & Hj & E). cbn [snd] in E. apply in_flat_map in Hj. destruct Hj as (c & Hc & Hj).
    apply js_ctrl_in in Hj. destruct Hj as (A & _ & V). subst v. destruct k; [apply exec_level_flag in E|apply per_level_flag in E]; destruct E as [E|E]; [left|right|left|right]; exists c; auto.
  - assert (M : forall c k v, In c cs -> dc_lc c = Active -> v = (if k : bool then exec_level t (dc_async c) (dc_rate c) (dc_exec c) else per_level cr t (dc_async c) (dc_rate c) (dc_per c)) ->
      In (k, (dc_name c, v)) (flat_map (js_ctrl cr t) cs)).
    { intros c k v Hc A V. apply in_flat_map. exists c. split; [exact Hc|]. apply js_ctrl_in. auto. }
    intros [(c & Hc & A & [E|E])|(c & Hc & A & [E|E])];
      (eexists; split; [eapply M; [exact Hc|exact A|reflexivity]|]).
    + instantiate (1 := false). apply per_level_flag. auto.
    + instantiate (1 := true). apply exec_level_flag. auto.
    + instantiate (1 := false). apply per_level_flag. auto.
    + instantiate (1 := true). apply exec_level_flag. auto.
Qed.
Lemma hws_error hs : worst (flat_map (js_hw cr t) hs) = ERROR <-> exists h, In h hs /\ hw_error cr t h.
Proof.
  rewrite worst_error. unfold hw_error. split.
  - intros ([k [n v]] & Hj & E). cbn [snd] in E. apply in_flat_map in Hj. destruct Hj as (h & Hh & Hj). exists h. split; [exact Hh|].
    apply js_hw_in in Hj. destruct Hj as (A & _ & y & Hy & V). subst v. split; [exact A|]. exists y. split; [exact Hy|].
    destruct k; [right; apply exec_level_error; exact E|left; apply per_level_error; exact E].
  - intros (h & Hh & A & y & Hy & [E|E]).
    + exists (false, (dh_name h, ERROR)). split; [|reflexivity]. apply in_flat_map. exists h. split; [exact Hh|]. apply js_hw_in. apply per_level_error in E. eauto 6.
    + exists (true, (dh_name h, ERROR)). split; [|reflexivity]. apply in_flat_map. exists h. split; [exact Hh|]. apply js_hw_in. apply exec_level_error in E. eauto 6.
Qed.
Lemma hws_flag hs : worst (flat_map (js_hw cr t) hs) <> OK <-> (exists h, In h hs /\ hw_error cr t h) \/ (exists h, In h hs /\ hw_warn cr t h).
Proof.
  rewrite worst_flag. unfold hw_error, hw_warn. split.
  - intros ([k [n v]] & Hj & E). cbn [snd] in E. apply in_flat_map in Hj. destruct Hj as (h & Hh & Hj).
    apply js_hw_in in Hj. destruct Hj as (A & _ & y & Hy & V). subst v. destruct k; [apply exec_level_flag in E|apply per_level_flag in E]; destruct E as [E|E]; [left|right|left|right]; exists h; eauto 6.
  - assert (M : forall h k y, In h hs -> dh_lc h = Active -> cycle_of h y ->
      In (k, (dh_name h, if k : bool then exec_level t (dh_async h) (dh_rate h) (cy_exec y) else per_level cr t (dh_async h) (dh_rate h) (cy_per y))) (flat_map (js_hw cr t) hs)).
    { intros h k y Hh A Hy. apply in_flat_map. exists h. split; [exact Hh|]. apply js_hw_in. eauto 6. }
    intros [(h & Hh & A & y & Hy & [E|E])|(h & Hh & A & y & Hy & [E|E])].
    + eexists; split; [eapply (M h false y); assumption|]. apply per_level_flag. auto.
    + eexists; split; [eapply (M h true y); assumption|]. apply exec_level_flag. auto.
    + eexists; split; [eapply (M h false y); assumption|]. apply per_level_flag. auto.
    + eexists; split; [eapply (M h true y); assumption|]. apply exec_level_flag. auto.
Qed.
End Reports.
