(** DiagProofs2.v -- the reports. *)
From Coq Require Import QArith Qabs NArith Lia Bool.
From Verif Require Import Base Events DiagModel DiagSpec DiagProofs.
Open Scope string_scope.
Open Scope nat_scope.
Open Scope list_scope.

(** ---- values *)
Lemma per_stat t n r s a : a_stat (judge_per t n r s a) = a_stat a.
Proof. unfold judge_per. destruct (verdict _ _ _); reflexivity. Qed.
Lemma exec_stat t n i r s a : a_stat (judge_exec t n i r s a) = a_stat a.
Proof. unfold judge_exec. destruct (verdict _ _ _); reflexivity. Qed.
Definition grown (s s' : stat) (vs : list (string * value)) : Prop :=
  st_level s' = st_level s /\ st_msg s' = st_msg s /\ st_values s' = st_values s ++ vs.
Lemma ctrl_stat cr t a c : grown (a_stat a) (a_stat (ctrl_one cr t a c)) (ctrl_values cr c).
Proof.
  unfold ctrl_one, ctrl_values, is_active. destruct (dc_lc c); cbn [lc_eqb]; try (repeat split; reflexivity).
  rewrite exec_stat. destruct (_ || _); rewrite ?per_stat; cbn [with_stat a_stat add];
    (split; [reflexivity|split; [reflexivity|]]); cbn [st_values add]; rewrite <- !app_assoc; reflexivity.
Qed.
Lemma cycle_stat cr t h sfx y a : grown (a_stat a) (a_stat (hw_cycle cr t h sfx y a)) (cycle_values cr h sfx y).
Proof.
  unfold hw_cycle, cycle_values. destruct y as [y|]; [|split; [reflexivity|split; [reflexivity|symmetry; apply app_nil_r]]].
  rewrite exec_stat. destruct (_ || _); rewrite ?per_stat; cbn [with_stat a_stat add];
    (split; [reflexivity|split; [reflexivity|]]); cbn [st_values add]; rewrite <- ?app_assoc; reflexivity.
Qed.
Lemma grown_trans a b c x y : grown a b x -> grown b c y -> grown a c (x ++ y).
Proof. intros (A1 & A2 & A3) (B1 & B2 & B3). split; [congruence|]. split; [congruence|]. rewrite B3, A3, <- app_assoc. reflexivity. Qed.
Lemma hw_stat cr t a h : grown (a_stat a) (a_stat (hw_one cr t a h)) (hw_values cr h).
Proof.
  unfold hw_one, hw_values, is_active. destruct (dh_lc h); cbn [lc_eqb]; try (repeat split; reflexivity).
  match goal with |- grown _ _ (?v :: _) => change (grown (a_stat a) (a_stat (hw_cycle cr t h ".write_cycle" (dh_write h) (hw_cycle cr t h ".read_cycle" (dh_read h)
     (with_stat a (dh_name h ++ ".state")%string (VLabel Active))))) ([v] ++ (cycle_values cr h ".read_cycle" (dh_read h) ++ cycle_values cr h ".write_cycle" (dh_write h)))) end.
  eapply (grown_trans _ (a_stat (with_stat a (dh_name h ++ ".state")%string (VLabel Active)))); [repeat split; reflexivity|]. eapply grown_trans; apply cycle_stat.
Qed.
Lemma fold_stat {A} (f : acc -> A -> acc) (vs : A -> list (string * value)) : (forall a x, grown (a_stat a) (a_stat (f a x)) (vs x)) ->
  forall xs a, grown (a_stat a) (a_stat (fold_left f xs a)) (flat_map vs xs).
Proof.
  intros H. induction xs as [|x xs IH]; intros a; cbn [fold_left flat_map].
  - split; [reflexivity|split; [reflexivity|symmetry; apply app_nil_r]].
  - eapply grown_trans; [apply H|apply IH].
Qed.

(** ---- the report about the controllers *)
Section Reports.
Variables (cr : N) (t : thresholds).
Definition cjs (cs : list dctrl) := flat_map (js_ctrl cr t) cs.
Definition hjs (hs : list dhw) := flat_map (js_hw cr t) hs.
Definition bad_of (js : list jd) : list name := fold_left add_item (flagged false js) [].
Definition all_text (cs : list dctrl) : string :=
  if forallb (fun c => is_active (dc_lc c)) cs then "All controllers are active" else "Not all controllers are active".
Definition extra (hws : list dhw) (cs : list dctrl) : list (level * string) :=
  if negb (existsb (fun h => is_active (dh_lc h)) hws)
  then [(ERROR, "No hardware components are currently active to activate controllers")]
  else match cs with [] => [(WARN, "No controllers are currently loaded")] | _ => [] end.
Lemma controllers_exact hws cs : controllers_report cr t hws cs =
  {| st_level := fold_left (fun l x => lmax l (fst x)) (extra hws cs) (worst (cjs cs));
     st_msg := match (remarks (flagged true (cjs cs)) (bad_of (cjs cs)) ++ map snd (extra hws cs))%list with [] => all_text cs | ts => joined ts end;
     st_values := flat_map (ctrl_values cr) cs |}.
Proof.
  unfold controllers_report. cbv zeta. set (a := fold_left (ctrl_one cr t) cs (start_acc blank)).
  assert (C : core_of a = (worst (cjs cs), flagged true (cjs cs), bad_of (cjs cs))).
  { unfold a. rewrite (core_fold _ (js_ctrl cr t) (core_ctrl cr t)). etransitivity; [apply run_result|]. reflexivity. }
  apply core_eq in C. destruct C as (C1 & C2 & C3).
  assert (V : st_values (a_stat a) = flat_map (ctrl_values cr) cs) by apply (fold_stat _ (ctrl_values cr) (ctrl_stat cr t) cs (start_acc blank)).
  assert (K : a_level a = OK <-> a_high a = [] /\ a_bad a = []) by (rewrite C1, C2, C3; apply consistent).
  fold (all_text cs). unfold extra. destruct (negb (existsb _ hws)).
  - rewrite merge_extra by (try exact K; try reflexivity; discriminate). rewrite C1, C2, C3. cbn [fold_left map fst snd summary st_values]. rewrite V.
    destruct (remarks _ _); reflexivity.
  - destruct cs as [|c cs'].
    + rewrite merge_extra by (try exact K; try reflexivity; discriminate). rewrite C1, C2, C3. reflexivity.
    + rewrite merge_lists_spec by (try exact K; reflexivity). rewrite C1, C2, C3. cbn [fold_left map summary st_values st_msg]. rewrite V, app_nil_r. reflexivity.
Qed.

Lemma no_hw_iff hws : negb (existsb (fun h => is_active (dh_lc h)) hws) = true <-> no_hw_active hws.
Proof.
  rewrite negb_true_iff. split.
  - intros H h Hh L. assert (X : existsb (fun h => is_active (dh_lc h)) hws = true); [|congruence].
    apply existsb_exists. exists h. split; [exact Hh|apply active_iff; exact L].
  - intros H. destruct (existsb _ hws) eqn:E; [|reflexivity]. apply existsb_exists in E. destruct E as (h & Hh & L).
    apply active_iff in L. exfalso. exact (H h Hh L).
Qed.
Lemma main_controllers_level hws cs : level_is (st_level (controllers_report cr t hws cs))
  (no_hw_active hws \/ exists c, In c cs /\ ctrl_error cr t c)
  (cs = [] \/ exists c, In c cs /\ ctrl_warn cr t c).
Proof.
  rewrite controllers_exact. cbn [st_level]. pose proof (ctrls_error cr t cs) as E. pose proof (ctrls_flag cr t cs) as F. fold (cjs cs) in E, F.
  unfold extra. destruct (negb (existsb (fun h => is_active (dh_lc h)) hws)) eqn:H.
  - apply no_hw_iff in H. cbn [fold_left fst]. apply (level_of _ _ True).
    + rewrite lmax_error. split; [intros _; left; exact H|intros _; right; reflexivity].
    + rewrite lmax_flag. split; [auto|intros _; right; discriminate].
    + split; [intros _; left; left; exact H|auto].
  - assert (NH : ~ no_hw_active hws) by (intros C; apply no_hw_iff in C; congruence).
    destruct cs as [|c0 cs'].
    + cbn [fold_left fst]. apply (level_of _ _ True).
      * rewrite lmax_error. split; [intros [A|A]; [right; apply E; exact A|discriminate]|]. intros [A|(c & [] & _)]. contradiction.
      * rewrite lmax_flag. split; [auto|intros _; right; discriminate].
      * split; [intros _; right; left; reflexivity|auto].
    + cbn [fold_left]. apply (level_of _ _ ((exists c, In c (c0 :: cs') /\ ctrl_error cr t c) \/ (exists c, In c (c0 :: cs') /\ ctrl_warn cr t c))).
      * rewrite E. split; [auto|intros [A|A]; [contradiction|exact A]].
      * exact F.
      * split; [intros [A|A]; [left; right; exact A|right; right; exact A]|]. intros [[A|A]|[A|A]]; [contradiction|left; exact A|discriminate|right; exact A].
Qed.

Lemma high_ctrl cs n : In n (flagged true (cjs cs)) <-> exists c, In c cs /\ dc_name c = n /\ dc_lc c = Active /\
  (exec_error t (dc_async c) (dc_rate c) (dc_exec c) \/ exec_warn t (dc_async c) (dc_rate c) (dc_exec c)).
Proof.
  rewrite flagged_in. split.
  - intros (v & Hv & N). apply in_flat_map in Hv. destruct Hv as (c & Hc & Hv). apply js_ctrl_in in Hv. destruct Hv as (A & -> & ->).
    apply exec_level_flag in N. exists c. auto.
  - intros (c & Hc & <- & A & N). apply exec_level_flag in N. eexists. split; [|exact N]. apply in_flat_map. exists c. split; [exact Hc|].
    apply js_ctrl_in. auto.
Qed.
Lemma bad_ctrl cs n : In n (bad_of (cjs cs)) <-> exists c, In c cs /\ dc_name c = n /\ dc_lc c = Active /\
  (per_error cr t (dc_async c) (dc_rate c) (dc_per c) \/ per_warn cr t (dc_async c) (dc_rate c) (dc_per c)).
Proof.
  unfold bad_of. rewrite add_items_in, flagged_in. split.
  - intros [[]|(v & Hv & N)]. apply in_flat_map in Hv. destruct Hv as (c & Hc & Hv). apply js_ctrl_in in Hv. destruct Hv as (A & -> & ->).
    apply per_level_flag in N. exists c. auto.
  - intros (c & Hc & <- & A & N). right. apply per_level_flag in N. eexists. split; [|exact N]. apply in_flat_map. exists c. split; [exact Hc|].
    apply js_ctrl_in. auto.
Qed.
Lemma high_ctrl_nodup cs : NoDup (map dc_name cs) -> NoDup (flagged true (cjs cs)).
Proof.
  induction cs as [|c cs IH]; intros H; [constructor|]. cbn [map] in H. inversion H as [|x l N D]; subst. specialize (IH D).
  unfold cjs. cbn [flat_map]. unfold flagged. rewrite flat_map_app. fold (flagged true (js_ctrl cr t c)). fold (cjs cs). fold (flagged true (cjs cs)).
  assert (X : flagged true (js_ctrl cr t c) = [] \/ flagged true (js_ctrl cr t c) = [dc_name c]).
  { unfold js_ctrl. destruct (is_active (dc_lc c)); [|left; reflexivity]. cbn [flagged flat_map fst snd Bool.eqb app].
    destruct (exec_level t (dc_async c) (dc_rate c) (dc_exec c)); auto. }
  destruct X as [-> | ->]; cbn [app]; [exact IH|]. constructor; [|exact IH]. intros C. apply high_ctrl in C. destruct C as (c' & Hc & E & _).
  apply N. rewrite <- E. apply in_map. exact Hc.
Qed.
Lemma bad_nodup js : NoDup (bad_of js). Proof. apply add_items_nodup. constructor. Qed.

(** the message *)
Lemma main_controllers_message hws cs : NoDup (map dc_name cs) -> exists high bad,
  NoDup high /\ NoDup bad /\
  (forall n, In n high <-> exists c, In c cs /\ dc_name c = n /\ dc_lc c = Active /\
     (exec_error t (dc_async c) (dc_rate c) (dc_exec c) \/ exec_warn t (dc_async c) (dc_rate c) (dc_exec c))) /\
  (forall n, In n bad <-> exists c, In c cs /\ dc_name c = n /\ dc_lc c = Active /\
     (per_error cr t (dc_async c) (dc_rate c) (dc_per c) \/ per_warn cr t (dc_async c) (dc_rate c) (dc_per c))) /\
  (st_level (controllers_report cr t hws cs) <> OK -> exists rest,
     st_msg (controllers_report cr t hws cs) = joined (remarks high bad ++ rest) /\
     (no_hw_active hws -> rest = ["No hardware components are currently active to activate controllers"]) /\
     (~ no_hw_active hws -> cs = [] -> rest = ["No controllers are currently loaded"]) /\
     (~ no_hw_active hws -> cs <> [] -> rest = [])) /\
  (st_level (controllers_report cr t hws cs) = OK ->
     ((forall c, In c cs -> dc_lc c = Active) -> st_msg (controllers_report cr t hws cs) = "All controllers are active") /\
     ((exists c, In c cs /\ dc_lc c <> Active) -> st_msg (controllers_report cr t hws cs) = "Not all controllers are active")).
Proof.
  intros ND. exists (flagged true (cjs cs)), (bad_of (cjs cs)). split; [apply high_ctrl_nodup; exact ND|]. split; [apply bad_nodup|].
  split; [apply high_ctrl|]. split; [apply bad_ctrl|]. rewrite controllers_exact. cbn [st_level st_msg].
  assert (R : remarks (flagged true (cjs cs)) (bad_of (cjs cs)) = [] <-> worst (cjs cs) = OK).
  { rewrite (consistent (cjs cs)). fold (bad_of (cjs cs)). unfold remarks.
    destruct (flagged true (cjs cs)), (bad_of (cjs cs)); cbn [app]; split; try (intros C; discriminate C); try (intros [A B]; discriminate); auto. }
  split.
  - intros L. exists (map snd (extra hws cs)). split; [|split; [|split]].
    + destruct (remarks _ _ ++ map snd (extra hws cs)) eqn:E; [|reflexivity]. exfalso. apply app_eq_nil in E. destruct E as [E1 E2].
      apply R in E1. apply map_eq_nil in E2. rewrite E2, E1 in L. apply L. reflexivity.
    + intros H. unfold extra. apply no_hw_iff in H. rewrite H. reflexivity.
    + intros H ->. unfold extra. destruct (negb _) eqn:E; [apply no_hw_iff in E; contradiction|reflexivity].
    + intros H N. unfold extra. destruct (negb _) eqn:E; [apply no_hw_iff in E; contradiction|]. destruct cs; [contradiction|reflexivity].
  - intros L. assert (E : extra hws cs = [] /\ worst (cjs cs) = OK).
    { unfold extra in *. destruct (negb _); [destruct (worst (cjs cs)); discriminate|]. destruct cs; [discriminate|]. split; [reflexivity|exact L]. }
    destruct E as [E1 E2]. apply R in E2. rewrite E1, E2. cbn [map app]. unfold all_text. split.
    + intros H. replace (forallb (fun c => is_active (dc_lc c)) cs) with true; [reflexivity|]. symmetry. apply forallb_forall. intros c Hc. apply active_iff. apply H. exact Hc.
    + intros (c & Hc & N). destruct (forallb (fun c => is_active (dc_lc c)) cs) eqn:F; [|reflexivity]. rewrite forallb_forall in F. exfalso. apply N. apply active_iff. apply F. exact Hc.
Qed.
Lemma main_controllers_values hws cs : st_values (controllers_report cr t hws cs) = flat_map (ctrl_values cr) cs.
Proof. rewrite controllers_exact. reflexivity. Qed.

(** ---- the report about the hardware *)
Definition hw_all (hs : list dhw) : string :=
  if forallb (fun h => is_active (dh_lc h)) hs then "All hardware components are active" else "Not all hardware components are active".
Lemma hardware_exact hs : ~ no_hw_active hs -> hardware_report cr t true hs =
  {| st_level := worst (hjs hs);
     st_msg := match remarks (flagged true (hjs hs)) (bad_of (hjs hs)) with [] => hw_all hs | ts => joined ts end;
     st_values := flat_map (hw_values cr) hs |}.
Proof.
  intros H. unfold hardware_report. cbn [negb]. destruct hs as [|h0 hs']; [exfalso; apply H; intros h []|]. set (hs := h0 :: hs') in *.
  destruct (negb (existsb (fun h => is_active (dh_lc h)) hs)) eqn:E; [apply no_hw_iff in E; contradiction|]. cbv zeta.
  fold (hw_all hs). set (s0 := summary blank OK (hw_all hs)). set (a := fold_left (hw_one cr t) hs (start_acc s0)).
  assert (C : core_of a = (worst (hjs hs), flagged true (hjs hs), bad_of (hjs hs))).
  { unfold a. rewrite (core_fold _ (js_hw cr t) (core_hw cr t)). etransitivity; [apply run_result|]. reflexivity. }
  apply core_eq in C. destruct C as (C1 & C2 & C3).
  destruct (fold_stat _ (hw_values cr) (hw_stat cr t) hs (start_acc s0)) as (V1 & V2 & V3). fold a in V1, V2, V3.
  assert (K : a_level a = OK <-> a_high a = [] /\ a_bad a = []) by (rewrite C1, C2, C3; apply consistent).
  rewrite merge_lists_spec by (try exact K; exact V1). rewrite C1, C2, C3, V2, V3. reflexivity.
Qed.
Lemma main_hw_nothing hs : 
  st_level (hardware_report cr t false hs) = ERROR /\ st_values (hardware_report cr t false hs) = [] /\
  st_level (hardware_report cr t true []) = ERROR /\
  (hs <> [] -> no_hw_active hs -> st_level (hardware_report cr t true hs) = WARN /\ st_values (hardware_report cr t true hs) = []).
Proof.
  split; [reflexivity|]. split; [reflexivity|]. split; [reflexivity|]. intros N H. unfold hardware_report. cbn [negb]. destruct hs; [contradiction|].
  apply no_hw_iff in H. rewrite H. split; reflexivity.
Qed.
Lemma main_hw_level hs : ~ no_hw_active hs -> level_is (st_level (hardware_report cr t true hs))
  (exists h, In h hs /\ hw_error cr t h) (exists h, In h hs /\ hw_warn cr t h).
Proof.
  intros H. rewrite (hardware_exact hs H). cbn [st_level]. eapply level_of; [apply hws_error|apply hws_flag|reflexivity].
Qed.
Lemma high_hw hs n : In n (flagged true (hjs hs)) <-> exists h y, In h hs /\ dh_name h = n /\ dh_lc h = Active /\ cycle_of h y /\
  (exec_error t (dh_async h) (dh_rate h) (cy_exec y) \/ exec_warn t (dh_async h) (dh_rate h) (cy_exec y)).
Proof.
  rewrite flagged_in. split.
  - intros (v & Hv & N). apply in_flat_map in Hv. destruct Hv as (c & Hc & Hv). apply js_hw_in in Hv. destruct Hv as (A & -> & y & Y & ->).
    apply exec_level_flag in N. exists c, y. auto 6.
  - intros (c & y & Hc & <- & A & Y & N). apply exec_level_flag in N. eexists. split; [|exact N]. apply in_flat_map. exists c. split; [exact Hc|].
    apply js_hw_in. eauto 6.
Qed.
Lemma bad_hw hs n : In n (bad_of (hjs hs)) <-> exists h y, In h hs /\ dh_name h = n /\ dh_lc h = Active /\ cycle_of h y /\
  (per_error cr t (dh_async h) (dh_rate h) (cy_per y) \/ per_warn cr t (dh_async h) (dh_rate h) (cy_per y)).
Proof.
  unfold bad_of. rewrite add_items_in, flagged_in. split.
  - intros [[]|(v & Hv & N)]. apply in_flat_map in Hv. destruct Hv as (c & Hc & Hv). apply js_hw_in in Hv. destruct Hv as (A & -> & y & Y & ->).
    apply per_level_flag in N. exists c, y. auto 6.
  - intros (c & y & Hc & <- & A & Y & N). right. apply per_level_flag in N. eexists. split; [|exact N]. apply in_flat_map. exists c. split; [exact Hc|].
    apply js_hw_in. eauto 6.
Qed.
Lemma main_hw_message hs : ~ no_hw_active hs -> exists high bad,
  NoDup bad /\
  (forall n, In n high <-> exists h y, In h hs /\ dh_name h = n /\ dh_lc h = Active /\ cycle_of h y /\
     (exec_error t (dh_async h) (dh_rate h) (cy_exec y) \/ exec_warn t (dh_async h) (dh_rate h) (cy_exec y))) /\
  (forall n, In n bad <-> exists h y, In h hs /\ dh_name h = n /\ dh_lc h = Active /\ cycle_of h y /\
     (per_error cr t (dh_async h) (dh_rate h) (cy_per y) \/ per_warn cr t (dh_async h) (dh_rate h) (cy_per y))) /\
  (st_level (hardware_report cr t true hs) <> OK -> st_msg (hardware_report cr t true hs) = joined (remarks high bad)) /\
  (st_level (hardware_report cr t true hs) = OK ->
     ((forall h, In h hs -> dh_lc h = Active) -> st_msg (hardware_report cr t true hs) = "All hardware components are active") /\
     ((exists h, In h hs /\ dh_lc h <> Active) -> st_msg (hardware_report cr t true hs) = "Not all hardware components are active")).
Proof.
  intros H. exists (flagged true (hjs hs)), (bad_of (hjs hs)). split; [apply bad_nodup|]. split; [apply high_hw|]. split; [apply bad_hw|].
  rewrite (hardware_exact hs H). cbn [st_level st_msg].
  assert (R : remarks (flagged true (hjs hs)) (bad_of (hjs hs)) = [] <-> worst (hjs hs) = OK).
  { rewrite (consistent (hjs hs)). fold (bad_of (hjs hs)). unfold remarks.
    destruct (flagged true (hjs hs)), (bad_of (hjs hs)); cbn [app]; split; try (intros C; discriminate C); try (intros [A B]; discriminate); auto. }
  split.
  - intros L. destruct (remarks _ _) eqn:E; [|reflexivity]. exfalso. apply L. apply R. reflexivity.
  - intros L. apply R in L. rewrite L. unfold hw_all. split.
    + intros A. replace (forallb (fun h => is_active (dh_lc h)) hs) with true; [reflexivity|]. symmetry. apply forallb_forall. intros c Hc. apply active_iff. apply A. exact Hc.
    + intros (c & Hc & N). destruct (forallb (fun h => is_active (dh_lc h)) hs) eqn:F; [|reflexivity]. rewrite forallb_forall in F. exfalso. apply N. apply active_iff. apply F. exact Hc.
Qed.
Lemma main_hw_values hs : ~ no_hw_active hs -> st_values (hardware_report cr t true hs) = flat_map (hw_values cr) hs.
Proof. intros H. rewrite (hardware_exact hs H). reflexivity. Qed.
End Reports.

(** ---- the manager itself *)
Lemma main_manager cr t rm_init description p : level_is (st_level (manager_report cr t rm_init description p))
  (rm_init = false /\ description = true \/ per_beyond p cr (mean_err t) (sd_err t))
  (rm_init = false /\ description = false \/ per_beyond p cr (mean_warn t) (sd_warn t)).
Proof.
  unfold manager_report. cbv zeta. set (v := verdict t _ _).
  assert (VE : v = ERROR <-> per_beyond p cr (mean_err t) (sd_err t)).
  { unfold v, per_beyond. rewrite verdict_error, gt_off, gt_above. tauto. }
  assert (VF : v <> OK <-> per_beyond p cr (mean_err t) (sd_err t) \/ per_beyond p cr (mean_warn t) (sd_warn t)).
  { unfold v, per_beyond. rewrite verdict_flag, !gt_off, !gt_above. tauto. }
  set (b := if rm_init then OK else if description then ERROR else WARN).
  set (s := add (add (add (add (add blank "update_rate" (VRate cr)) "periodicity.average" (VNum (s_avg p)))
             "periodicity.standard_deviation" (VNum (s_sd p))) "periodicity.min" (VNum (s_min p))) "periodicity.max" (VNum (s_max p))).
  set (s1 := if rm_init then summary s OK "Controller Manager is running" else if negb description then summary s WARN "Waiting for robot description...."
             else summary s ERROR "Resource Manager is not initialized properly!").
  assert (B : st_level s1 = b) by (unfold s1, b; destruct rm_init, description; reflexivity).
  assert (L : st_level (match v with OK => s1 | WARN => merge_summary s1 WARN bad_cm_text | ERROR => merge_summary s1 ERROR bad_cm_text end) = lmax b v).
  { destruct v; cbn [merge_summary st_level]; rewrite B; destruct b; reflexivity. }
  rewrite L. apply (level_of _ _ (b <> OK \/ v <> OK)).
  - rewrite lmax_error, VE. unfold b. destruct rm_init, description; split; intros [H|H]; auto; try discriminate; try (destruct H; discriminate).
  - apply lmax_flag.
  - rewrite VF. unfold b. clear -VE. destruct rm_init, description; split; intros [H|H];
      try (exfalso; apply H; reflexivity); try (destruct H as [H1 H2]; discriminate); auto;
      try (left; discriminate); try (destruct H as [H|H]; auto); try (destruct H as [H0 H1]; discriminate);
      try (left; left; auto; fail); try (right; left; auto; fail).
Qed.

(** ---- larger thresholds never raise the level *)
Lemma above_mono x a b : (a <= b)%Q -> above x b -> above x a.
Proof. intros H. destruct x; cbn; auto. intros K. eapply Qle_lt_trans; eassumption. Qed.
Lemma off_mono x r a b : (a <= b)%Q -> off_rate x r b -> off_rate x r a.
Proof.
  intros H. destruct x; cbn; auto. intros [K|K].
  - left. eapply Qlt_le_trans; [exact K|]. apply Qplus_le_r. apply Qopp_le_compat. exact H.
  - right. eapply Qle_lt_trans; [|exact K]. apply Qplus_le_r. exact H.
Qed.
Lemma over_mono x i r a b : (a <= b)%Q -> over_time x i r b -> over_time x i r a.
Proof.
  intros H. destruct x; cbn; auto. destruct i; [destruct r as [|p]; [auto|]|].
  - intros K. eapply Qle_lt_trans; [|exact K]. apply Qplus_le_r. exact H.
  - intros K. eapply Qle_lt_trans; eassumption.
Qed.
Section Looser.
Variables (cr : N) (t t' : thresholds).
Hypothesis HP : looser (t_per t) (t_per t').
Hypothesis HE : looser (t_exec t) (t_exec t').
Lemma ctrl_error_mono c : ctrl_error cr t' c -> ctrl_error cr t c.
Proof.
  destruct HP as (P1 & P2 & P3 & P4), HE as (E1 & E2 & E3 & E4). intros (A & [(O & [B|B])|[B|B]]); (split; [exact A|]).
  - left. split; [exact O|]. left. eapply off_mono; eassumption.
  - left. split; [exact O|]. right. eapply above_mono; eassumption.
  - right. left. eapply over_mono; eassumption.
  - right. right. eapply above_mono; eassumption.
Qed.
Lemma ctrl_warn_mono c : ctrl_warn cr t' c -> ctrl_warn cr t c.
Proof.
  destruct HP as (P1 & P2 & P3 & P4), HE as (E1 & E2 & E3 & E4). intros (A & [(O & [B|B])|[B|B]]); (split; [exact A|]).
  - left. split; [exact O|]. left. eapply off_mono; eassumption.
  - left. split; [exact O|]. right. eapply above_mono; eassumption.
  - right. left. eapply over_mono; eassumption.
  - right. right. eapply above_mono; eassumption.
Qed.
Lemma main_looser hws cs : lnum (st_level (controllers_report cr t' hws cs)) <= lnum (st_level (controllers_report cr t hws cs)).
Proof.
  pose proof (main_controllers_level cr t hws cs) as (A1 & A2 & A3). pose proof (main_controllers_level cr t' hws cs) as (B1 & B2 & B3).
  assert (E : (no_hw_active hws \/ exists c, In c cs /\ ctrl_error cr t' c) -> (no_hw_active hws \/ exists c, In c cs /\ ctrl_error cr t c)).
  { intros [H|(c & Hc & H)]; [left; exact H|]. right. exists c. split; [exact Hc|apply ctrl_error_mono; exact H]. }
  assert (W : (cs = [] \/ exists c, In c cs /\ ctrl_warn cr t' c) -> (cs = [] \/ exists c, In c cs /\ ctrl_warn cr t c)).
  { intros [H|(c & Hc & H)]; [left; exact H|]. right. exists c. split; [exact Hc|apply ctrl_warn_mono; exact H]. }
  destruct (st_level (controllers_report cr t' hws cs)); [cbn; lia| |].
  - destruct (proj1 B2 eq_refl) as [_ W']. apply W in W'. destruct (st_level (controllers_report cr t hws cs)); cbn; try lia.
    exfalso. apply (proj1 A3 eq_refl). exact W'.
  - pose proof (E (proj1 B1 eq_refl)) as E'. apply A1 in E'. rewrite E'. lia.
Qed.
End Looser.

(** ---- before the first measurement *)
Lemma unmeasured_fine cr t c : unmeasured (dc_per c) -> unmeasured (dc_exec c) -> ~ ctrl_error cr t c /\ ~ ctrl_warn cr t c.
Proof.
  intros [A B] [C D]. unfold ctrl_error, ctrl_warn, per_error, per_warn, exec_error, exec_warn, per_beyond, exec_beyond. rewrite A, B, C, D. cbn. tauto.
Qed.
Lemma main_unmeasured cr t hws cs : ~ no_hw_active hws -> cs <> [] ->
  (forall c, In c cs -> dc_lc c = Active -> unmeasured (dc_per c) /\ unmeasured (dc_exec c)) ->
  st_level (controllers_report cr t hws cs) = OK.
Proof.
  intros H N U. destruct (main_controllers_level cr t hws cs) as (_ & _ & A). apply A. split.
  - intros [X|(c & Hc & X)]; [contradiction|]. destruct (U c Hc (proj1 X)) as [P Q]. apply (proj1 (unmeasured_fine cr t c P Q)). exact X.
  - intros [X|(c & Hc & X)]; [contradiction|]. destruct (U c Hc (proj1 X)) as [P Q]. apply (proj2 (unmeasured_fine cr t c P Q)). exact X.
Qed.
