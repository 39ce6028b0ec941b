(** BringupProofs.v -- proofs about BringupModel. *)
From Verif Require Import LimitsModel EnforceModel Base Events HwModel RmModel InitHwModel LoadModel LoadSpec LoadProofs LoadMain
  BringupModel BringupSpec.
Open Scope string_scope. Open Scope nat_scope. Open Scope list_scope.

(** handle_exceptions = true: LoadModel *)
Definition ans (o : lres) : bool := match o with LOk => true | _ => false end.
Lemma component_handled e le ur k d s :
  (let '(s', o) := load_component_x true e le ur k d s in (s', ans o)) = load_component e le ur k d s /\
  snd (load_component_x true e le ur k d s) <> LThrew.
Proof.
  unfold load_component_x, load_component. destruct (negb (le_create le k (d_plugin d))); [split; [reflexivity|discriminate]|].
  cbn zeta. destruct (hw_init _ _ _) as [[h1 t1] threw].
  destruct threw; cbn [orb]; [split; [reflexivity|discriminate]|].
  destruct (negb (lc_eqb (h_lc h1) Unconfigured)); [split; [reflexivity|discriminate]|].
  destruct (import_states _ _ _) as [r2 h2]. cbn [negb]. rewrite andb_false_r.
  destruct (match k with Sensor => (r2, h2) | _ => import_cmds le r2 h2 end) as [r3 h3].
  rewrite andb_false_r. split; [reflexivity|discriminate].
Qed.
Lemma all_handled e le ur ds : forall s,
  (let '(s', o) := load_all_x true e le ur ds s in (s', ans o)) = load_all e le ur ds s /\
  snd (load_all_x true e le ur ds s) <> LThrew.
Proof.
  induction ds as [|d ds IH]; intro s; [split; [reflexivity|discriminate]|].
  cbn [load_all_x load_all]. destruct (aget (s_info s) (d_name d)); [split; [reflexivity|discriminate]|].
  destruct (kind_of (d_type d)) as [k|]; [|apply IH].
  destruct (component_handled e le ur k d s) as [A B].
  destruct (load_component_x true e le ur k d s) as [s' o]. rewrite <- A. cbn [snd] in B.
  destruct o; cbn [ans]; [apply IH| |congruence]. split; [reflexivity|discriminate].
Qed.
Lemma load_handled e le ur ds s : load_x true e le ur ds s = load e le ur ds s.
Proof.
  unfold load_x, load. destruct (all_handled e le ur ds s) as [A B].
  destruct (load_all_x true e le ur ds s) as [s1 o]. rewrite <- A. cbn [snd] in B.
  destruct o; cbn [ans andb]; try reflexivity. congruence.
Qed.

Lemma new_nothing t : nothing (new_store t).
Proof. constructor; try reflexivity. split; reflexivity. Qed.

(** A resource manager that holds nothing and one that was just built are the same up to leftovers; here: the managers a
    started manager can have while it waits. *)
Definition fresh (u : setup) (r : rman) : Prop :=
  exists st t, r = new_rman u st t.

Lemma init_rm_false u x r : r_loaded r = false -> u_handle u = true -> r_loaded (init_rm u x r) = true ->
  exists ds infos, x_text x <> "" /\ x_parsed x = Some (ds, infos) /\
    load (u_env u) (u_le u) (u_rate u) ds (r_store r) = (r_store (init_rm u x r), true) /\
    r_lims (init_rm u x r) = (if u_limits u then import_limiters infos (r_lims r) else r_lims r) /\
    r_set (init_rm u x r) = r_set r.
Proof.
  intros L H. unfold init_rm. destruct (String.eqb_spec (x_text x) "") as [E|E]; [congruence|].
  destruct (x_parsed x) as [[ds infos]|]; [|congruence]. rewrite H, load_handled.
  destruct (load _ _ _ _ _) as [s ok] eqn:EL. cbn [r_loaded r_store r_lims r_set]. intros ->.
  exists ds, infos. rewrite EL. repeat split; auto.
Qed.

Lemma died_boot u m : m_boots m = [] -> m_services m = 0 -> m_services (boot u m) = if died (boot u m) then 0 else 1.
Proof.
  intros _ Z. unfold boot, died; cbn [m_services m_boots]. destruct (initial_states _ _ _ _ _); rewrite Z; reflexivity.
Qed.

(** What a message does to a manager that waits. *)
Lemma receive_waiting u m x : u_handle u = true -> waiting m -> fresh u (m_rm m) ->
  (waiting (receive u m x) /\ m_rm (receive u m x) = new_rman u default_settings (rm_trace (s_rm (r_store (m_rm (receive u m x))))))
  \/ (runs u x (receive u m x) /\ limits_of u x (receive u m x) /\ r_set (m_rm (receive u m x)) = r_set (m_rm m)).
Proof.
  intros H (NR & NO & NB & NS) (st & t & F). unfold ready in NR.
  assert (D : died m = false) by (unfold died; rewrite NB; reflexivity).
  apply Bool.not_true_is_false in NR.
  unfold receive. rewrite D. cbn zeta. cbn [m_rm m_text m_boots m_services]. rewrite NR.
  destruct (r_loaded (init_rm u x (m_rm m))) eqn:L.
  - right. destruct (init_rm_false u x (m_rm m) NR H L) as (ds & infos & T & P & EL & W & S).
    split; [|split].
    + split; [exact L|]. exists ds, infos, t, (r_store (init_rm u x (m_rm m))).
      split; [exact T|]. split; [exact P|]. split; [|split; [reflexivity|split]].
      * rewrite F in EL at 1. exact EL.
      * unfold boot; cbn [m_boots m_rm]. rewrite NB. reflexivity.
      * rewrite <- died_boot; [reflexivity|exact NB|exact NS].
    + exists ds, infos. split; [exact P|]. unfold boot; cbn [m_rm]. rewrite W, F. reflexivity.
    + exact S.
  - left. split; [|reflexivity]. split; [unfold ready; cbn; discriminate|]. split; [apply new_nothing|]. split; [exact NB|exact NS].
Qed.
Lemma receive_ready u m x : ready m -> died m = false ->
  receive u m x = {| m_text := x_text x; m_rm := m_rm m; m_boots := m_boots m; m_services := m_services m |}.
Proof. intros R D. unfold receive. rewrite D. cbn zeta. cbn [m_rm]. unfold ready in R. rewrite R. reflexivity. Qed.

Theorem later_ignored u m xs : ready m ->
  let m' := receive_all u m xs in
  m_rm m' = m_rm m /\ m_boots m' = m_boots m /\ m_services m' = m_services m /\
  (died m = false -> m_text m' = last (map x_text xs) (m_text m)).
Proof.
  intro R. cbn zeta. unfold receive_all. revert m R. induction xs as [|x xs IH]; intros m R; [repeat split; reflexivity|].
  cbn [fold_left]. destruct (died m) eqn:D.
  - replace (receive u m x) with m by (unfold receive; rewrite D; reflexivity).
    destruct (IH m R) as (A & B & C & _). repeat split; auto. discriminate.
  - rewrite (receive_ready u m x R D).
    destruct (IH {| m_text := x_text x; m_rm := m_rm m; m_boots := m_boots m; m_services := m_services m |} R) as (A & B & C & E).
    repeat split; auto. intros _. rewrite (E D). cbn [m_text map]. 
    destruct xs as [|y ys]; [reflexivity|]. cbn [map].
    change (last (x_text x :: x_text y :: map x_text ys) (m_text m)) with (last (x_text y :: map x_text ys) (m_text m)).
    clear. revert y. induction ys as [|z ys IH]; intro y; [reflexivity|].
    cbn [map]. change (last (x_text y :: x_text z :: map x_text ys) (x_text x)) with (last (x_text z :: map x_text ys) (x_text x)).
    change (last (x_text y :: x_text z :: map x_text ys) (m_text m)) with (last (x_text z :: map x_text ys) (m_text m)). apply IH.
Qed.

Lemma started_waits u : waiting (started u) /\ m_rm (started u) = new_rman u (u_settings u) [].
Proof.
  assert (E : m_rm (started u) = new_rman u (u_settings u) []) by reflexivity.
  split; [|exact E]. split; [unfold ready; rewrite E; discriminate|]. split; [rewrite E; apply new_nothing|]. split; reflexivity.
Qed.
Lemma receive_all_app u m xs ys : receive_all u m (xs ++ ys) = receive_all u (receive_all u m xs) ys.
Proof. unfold receive_all. apply fold_left_app. Qed.

Definition settings_after (u : setup) (bad : list desc) : settings := match bad with [] => u_settings u | _ => default_settings end.
Lemma waiting_prefix u : u_handle u = true -> forall xs, 
  (waiting (receive_all u (started u) xs) /\ (forall bad later, xs = bad ++ later -> waiting (receive_all u (started u) bad)) /\
   exists t, m_rm (receive_all u (started u) xs) = new_rman u (settings_after u xs) t)
  \/ exists bad x later, xs = bad ++ x :: later /\ waiting (receive_all u (started u) bad) /\
       runs u x (receive_all u (started u) (bad ++ [x])) /\ limits_of u x (receive_all u (started u) (bad ++ [x])) /\
       r_set (m_rm (receive_all u (started u) (bad ++ [x]))) = settings_after u bad.
Proof.
  intros H xs. induction xs as [|x xs IH] using rev_ind.
  - left. destruct (started_waits u) as [W E]. split; [exact W|]. split.
    + intros bad later A. destruct bad; [exact W|discriminate].
    + exists []. exact E.
  - destruct IH as [(W & P & t & E)|(bad & y & later & A & R)].
    + destruct (receive_waiting u (receive_all u (started u) xs) x H W) as [(W' & E')|(R & L & S)].
      * exists (settings_after u xs), t. exact E.
      * left. rewrite receive_all_app. change (receive_all u (receive_all u (started u) xs) [x]) with (receive u (receive_all u (started u) xs) x).
        split; [exact W'|]. split.
        -- intros bad later A. destruct later as [|l later _] using rev_ind.
           ++ rewrite app_nil_r in A. subst bad. rewrite receive_all_app. exact W'.
           ++ rewrite app_assoc in A. apply app_inj_tail in A. destruct A as [A _]. exact (P _ _ A).
        -- exists (rm_trace (s_rm (r_store (m_rm (receive u (receive_all u (started u) xs) x))))).
           rewrite E' at 1. destruct xs; reflexivity.
      * right. exists xs, x, []. split; [reflexivity|]. split; [exact W|]. rewrite receive_all_app.
        change (receive_all u (receive_all u (started u) xs) [x]) with (receive u (receive_all u (started u) xs) x).
        split; [exact R|]. split; [exact L|]. rewrite S, E. reflexivity.
    + right. exists bad, y, (later ++ [x]). split; [rewrite A, <- app_assoc; reflexivity|exact R].
Qed.

(** The whole story of a manager started without a description. *)
Theorem first_loadable u xs : u_handle u = true ->
  let m := receive_all u (started u) xs in
  waiting m \/
  exists bad x later, xs = bad ++ x :: later /\
    (forall some rest, bad = some ++ rest -> waiting (receive_all u (started u) some)) /\
    runs u x m /\ limits_of u x m /\
    (bad = [] -> r_set (m_rm m) = u_settings u) /\ (bad <> [] -> r_set (m_rm m) = default_settings).
Proof.
  intro H. cbn zeta. destruct (waiting_prefix u H xs) as [(W & _)|(bad & x & later & A & W & R & L & S)]; [left; exact W|].
  right. exists bad, x, later. split; [exact A|].
  assert (E : receive_all u (started u) xs = receive_all u (receive_all u (started u) (bad ++ [x])) later).
  { rewrite A. replace (bad ++ x :: later) with ((bad ++ [x]) ++ later) by (rewrite <- app_assoc; reflexivity). apply receive_all_app. }
  assert (Rdy : ready (receive_all u (started u) (bad ++ [x]))) by (destruct R; assumption).
  destruct (later_ignored u _ later Rdy) as (I1 & I2 & I3 & _). rewrite <- E in I1, I2, I3.
  split.
  - intros some rest B. destruct (waiting_prefix u H bad) as [(_ & P & _)|(b & y & l & B' & _ & R' & _)]; [exact (P _ _ B)|].
    exfalso. destruct W as [NR _]. apply NR. rewrite B'.
    replace (b ++ y :: l) with ((b ++ [y]) ++ l) by (rewrite <- app_assoc; reflexivity). rewrite receive_all_app.
    destruct R' as [R' _]. destruct (later_ignored u _ l R') as (J1 & _). unfold ready. rewrite J1. exact R'.
  - split; [|split; [|split]].
    + destruct R as (R0 & ds & infos & t & s & R1 & R2 & R3 & R4 & R5 & R6). split; [unfold ready; rewrite I1; exact R0|].
      exists ds, infos, t, s. rewrite I1, I2, I3. repeat (split; [assumption|]).
      rewrite R6. unfold died. rewrite I2. reflexivity.
    + destruct L as (ds & infos & L1 & L2). exists ds, infos. rewrite I1. split; assumption.
    + intros ->. rewrite I1. exact S.
    + intro NE. rewrite I1, S. destruct bad; [congruence|reflexivity].
Qed.

(** Ready and booted go together, whatever handle_exceptions says, however the manager was started. *)
Definition once (m : manager) : Prop :=
  (r_loaded (m_rm m) = false /\ m_boots m = [] /\ m_services m = 0) \/
  (r_loaded (m_rm m) = true /\ exists o, m_boots m = [o] /\ m_services m = match o with Done _ _ => 1 | Threw _ => 0 end).
Lemma boot_once u m : r_loaded (m_rm m) = true -> m_boots m = [] -> m_services m = 0 -> once (boot u m).
Proof.
  intros L B S. right. split; [exact L|]. unfold boot; cbn [m_boots m_services]. rewrite B, S. eexists. split; reflexivity.
Qed.
Lemma receive_once u m x : once m -> once (receive u m x).
Proof.
  intros [(L & B & S)|(L & o & B & S)]; unfold receive.
  - replace (died m) with false by (unfold died; rewrite B; reflexivity). cbn zeta. cbn [m_rm m_boots m_services m_text]. rewrite L.
    destruct (r_loaded (init_rm u x (m_rm m))) eqn:E.
    + apply boot_once; [exact E|exact B|exact S].
    + left. repeat split; assumption.
  - destruct (died m); [right; split; [exact L|exists o; split; assumption]|].
    cbn zeta. cbn [m_rm]. rewrite L. right. split; [exact L|exists o; split; assumption].
Qed.
Theorem once_always u x0 xs : once (receive_all u (construct u x0) xs).
Proof.
  assert (I : once (construct u x0)).
  { unfold construct. cbn zeta. cbn [m_rm]. destruct (r_loaded (init_rm u x0 (new_rman u (u_settings u) []))) eqn:E.
    - apply boot_once; [exact E|reflexivity|reflexivity].
    - left. repeat split; assumption. }
  unfold receive_all. revert I. generalize (construct u x0) as m. induction xs as [|x xs IH]; intros m I; [exact I|].
  cbn [fold_left]. apply IH. apply receive_once. exact I.
Qed.

(** A manager that waits takes the next good description, whatever came before; also when it was constructed with a bad one. *)
Lemma store_nothing u x r : u_handle u = true -> nothing (r_store r) -> r_loaded (init_rm u x r) = false -> nothing (r_store (init_rm u x r)).
Proof.
  intros H N. unfold init_rm. destruct (String.eqb (x_text x) ""); [auto|]. destruct (x_parsed x) as [[ds infos]|]; [|auto].
  rewrite H, load_handled. destruct (load _ _ _ _ _) as [s ok] eqn:E. cbn [r_loaded r_store]. intros ->. exact (load_failed _ _ _ _ _ _ E).
Qed.
Lemma waits_nothing u x0 xs : u_handle u = true ->
  r_loaded (m_rm (receive_all u (construct u x0) xs)) = false -> nothing (r_store (m_rm (receive_all u (construct u x0) xs))).
Proof.
  intro H.
  assert (I : r_loaded (m_rm (construct u x0)) = false -> nothing (r_store (m_rm (construct u x0)))).
  { unfold construct. cbn zeta. cbn [m_rm]. destruct (r_loaded (init_rm u x0 (new_rman u (u_settings u) []))) eqn:E; cbn [m_rm boot].
    - congruence.
    - intros _. apply store_nothing; [exact H|apply new_nothing|exact E]. }
  unfold receive_all. revert I. generalize (construct u x0) as m. induction xs as [|x xs IH]; intros m I; [exact I|].
  cbn [fold_left]. apply IH. unfold receive. destruct (died m); [exact I|]. cbn zeta. cbn [m_rm m_boots m_services m_text].
  destruct (r_loaded (m_rm m)) eqn:L; [cbn [m_rm]; congruence|].
  destruct (r_loaded (init_rm u x (m_rm m))) eqn:E; cbn [m_rm boot]; [congruence|]. intros _. apply new_nothing.
Qed.
Theorem good_is_taken u x0 xs x ds infos : u_handle u = true -> good u x ds infos ->
  let m := receive_all u (construct u x0) xs in ~ ready m ->
  ready (receive u m x) /\ m_text (receive u m x) = x_text x /\ exists o, m_boots (receive u m x) = [o].
Proof.
  intros H G. cbn zeta. set (m := receive_all u (construct u x0) xs). intro NR.
  apply Bool.not_true_is_false in NR.
  pose proof (waits_nothing u x0 xs H NR) as N. destruct (once_always u x0 xs) as [(_ & B & S)|(L & _)]; [|fold m in L; congruence].
  fold m in N, B, S.
  assert (D : died m = false) by (unfold died; rewrite B; reflexivity).
  assert (L : r_loaded (init_rm u x (m_rm m)) = true).
  { unfold init_rm. destruct (String.eqb_spec (x_text x) "") as [E|_]; [destruct (g_text _ _ _ _ G E)|].
    rewrite (g_parsed _ _ _ _ G), H, load_handled.
    pose proof (load_succeeds (u_env u) (u_le u) (u_rate u) ds (r_store (m_rm m)) N (g_names _ _ _ _ G) (g_plugins _ _ _ _ G)
      (g_init _ _ _ _ G) (g_states _ _ _ _ G) (g_cmds _ _ _ _ G) (g_own _ _ _ _ G)) as K.
    destruct (load _ _ _ _ _) as [s ok]. cbn [snd] in K. subst ok. reflexivity. }
  unfold receive. rewrite D. cbn zeta. cbn [m_rm m_text m_boots m_services]. rewrite NR, L.
  split; [exact L|]. split; [reflexivity|]. unfold boot; cbn [m_boots]. rewrite B. eexists. reflexivity.
Qed.
Theorem constructed_with_good u x0 ds infos : u_handle u = true -> good u x0 ds infos ->
  let m := construct u x0 in runs u x0 m /\ limits_of u x0 m /\ r_set (m_rm m) = u_settings u /\ m_text m = x_text x0.
Proof.
  intros H G. cbn zeta.
  assert (L : r_loaded (init_rm u x0 (new_rman u (u_settings u) [])) = true).
  { unfold init_rm. destruct (String.eqb_spec (x_text x0) "") as [E|_]; [destruct (g_text _ _ _ _ G E)|].
    rewrite (g_parsed _ _ _ _ G), H, load_handled.
    pose proof (load_succeeds (u_env u) (u_le u) (u_rate u) ds (new_store []) (new_nothing []) (g_names _ _ _ _ G) (g_plugins _ _ _ _ G)
      (g_init _ _ _ _ G) (g_states _ _ _ _ G) (g_cmds _ _ _ _ G) (g_own _ _ _ _ G)) as K.
    cbn [r_store new_rman]. destruct (load _ _ _ _ _) as [s ok]. cbn [snd] in K. subst ok. reflexivity. }
  destruct (init_rm_false u x0 (new_rman u (u_settings u) []) eq_refl H L) as (ds' & infos' & T & P & EL & W & S).
  unfold construct. cbn zeta. cbn [m_rm]. rewrite L. split; [|split; [|split; [exact S|reflexivity]]].
  - split; [exact L|]. exists ds', infos', [], (r_store (init_rm u x0 (new_rman u (u_settings u) []))).
    split; [exact T|]. split; [exact P|]. split; [exact EL|]. split; [reflexivity|]. split; [reflexivity|].
    rewrite <- died_boot; reflexivity.
  - exists ds', infos'. split; [exact P|exact W].
Qed.
Theorem once_split u x0 xs : let m := receive_all u (construct u x0) xs in
  (~ ready m -> m_boots m = [] /\ m_services m = 0) /\
  (ready m -> exists o, m_boots m = [o] /\ m_services m = match o with Done _ _ => 1 | Threw _ => 0 end).
Proof.
  cbn zeta. destruct (once_always u x0 xs) as [(L & B & S)|(L & E)]; split.
  - intros _. split; assumption.
  - intro R. unfold ready in R. congruence.
  - intro N. destruct (N L).
  - intros _. exact E.
Qed.
