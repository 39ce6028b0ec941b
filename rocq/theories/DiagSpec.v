(** DiagSpec.v -- what the diagnostics must say, in terms of the measurements. *)
From Coq Require Import QArith Qabs NArith.
From Verif Require Import Base Events DiagModel.
Open Scope string_scope.
Open Scope list_scope.

(** [x] is a number above [t]; nothing that is not a number is *)
Definition above (x : num) (t : Q) : Prop := match x with Fin q => t < q | PInf => True | NInf | NaN => False end.
(** the average is off the rate [r] by more than [t] *)
Definition off_rate (x : num) (r : N) (t : Q) : Prop :=
  match x with
  | Fin q => q < inject_Z (Z.of_N r) - t \/ inject_Z (Z.of_N r) + t < q
  | PInf | NInf => True | NaN => False
  end.
(** the time spent in microseconds is above [t]; what runs in a thread of its own at rate [r] may
    in addition take one period *)
Definition over_time (x : num) (is_async : bool) (r : N) (t : Q) : Prop :=
  match x with
  | Fin q => match is_async, r with
             | false, _ => t < q
             | true, 0%N => False
             | true, Npos p => (1000000 # p) + t < q
             end
  | PInf => is_async = false \/ r <> 0%N
  | NInf | NaN => False
  end.

(** the thresholds crossed by the periodicity and by the execution time *)
Definition per_beyond (s : dstats) (r : N) (mean sd : Q) : Prop := off_rate (s_avg s) r mean \/ above (s_sd s) sd.
Definition exec_beyond (s : dstats) (is_async : bool) (r : N) (mean sd : Q) : Prop :=
  over_time (s_avg s) is_async r mean \/ above (s_sd s) sd.

(** the periodicity is judged only for what does not run at the rate of the manager, in its loop *)
Definition own_pace (is_async : bool) (r cm_rate : N) : Prop := is_async = true \/ r <> cm_rate.

Section One.
Variables (cm_rate : N) (t : thresholds) (is_async : bool) (r : N) (per exec : dstats).
Definition per_error := own_pace is_async r cm_rate /\ per_beyond per r (mean_err (t_per t)) (sd_err (t_per t)).
Definition per_warn := own_pace is_async r cm_rate /\ per_beyond per r (mean_warn (t_per t)) (sd_warn (t_per t)).
Definition exec_error := exec_beyond exec is_async r (mean_err (t_exec t)) (sd_err (t_exec t)).
Definition exec_warn := exec_beyond exec is_async r (mean_warn (t_exec t)) (sd_warn (t_exec t)).
End One.

(** a controller *)
Definition ctrl_error (cr : N) (t : thresholds) (c : dctrl) : Prop :=
  dc_lc c = Active /\ (per_error cr t (dc_async c) (dc_rate c) (dc_per c) \/ exec_error t (dc_async c) (dc_rate c) (dc_exec c)).
Definition ctrl_warn (cr : N) (t : thresholds) (c : dctrl) : Prop :=
  dc_lc c = Active /\ (per_warn cr t (dc_async c) (dc_rate c) (dc_per c) \/ exec_warn t (dc_async c) (dc_rate c) (dc_exec c)).
(** one of the cycles of a hardware component *)
Definition cycle_of (h : dhw) (y : dcycle) : Prop := dh_read h = Some y \/ dh_write h = Some y.
Definition hw_error (cr : N) (t : thresholds) (h : dhw) : Prop :=
  dh_lc h = Active /\ exists y, cycle_of h y /\
   (per_error cr t (dh_async h) (dh_rate h) (cy_per y) \/ exec_error t (dh_async h) (dh_rate h) (cy_exec y)).
Definition hw_warn (cr : N) (t : thresholds) (h : dhw) : Prop :=
  dh_lc h = Active /\ exists y, cycle_of h y /\
   (per_warn cr t (dh_async h) (dh_rate h) (cy_per y) \/ exec_warn t (dh_async h) (dh_rate h) (cy_exec y)).

(** the level, from the reasons for an error and for a warning *)
Definition level_is (l : level) (err warn : Prop) : Prop :=
  (l = ERROR <-> err) /\ (l = WARN <-> ~ err /\ warn) /\ (l = OK <-> ~ err /\ ~ warn).

(** the values of the report: for every controller its state and, if it is active, its execution
    time and, if it runs at its own pace, its periodicity next to the rate it should have *)
Definition ctrl_values (cr : N) (c : dctrl) : list (string * value) :=
  ((dc_name c ++ ".state")%string, VLabel (dc_lc c)) ::
  match dc_lc c with
  | Active => ((dc_name c ++ ".execution_time")%string, VStats (dc_exec c) None) ::
      (if dc_async c || negb (N.eqb (dc_rate c) cr)
       then [((dc_name c ++ ".periodicity")%string, VStats (dc_per c) (Some (dc_rate c)))] else [])
  | _ => []
  end.
Definition cycle_values (cr : N) (h : dhw) (suffix : string) (y : option dcycle) : list (string * value) :=
  match y with
  | None => []
  | Some y => ((dh_name h ++ suffix ++ ".execution_time")%string, VStats (cy_exec y) None) ::
      (if dh_async h || negb (N.eqb (dh_rate h) cr)
       then [((dh_name h ++ suffix ++ ".periodicity")%string, VStats (cy_per y) (Some (dh_rate h)))] else [])
  end.
Definition hw_values (cr : N) (h : dhw) : list (string * value) :=
  ((dh_name h ++ ".state")%string, VLabel (dh_lc h)) ::
  match dh_lc h with
  | Active => cycle_values cr h ".read_cycle" (dh_read h) ++ cycle_values cr h ".write_cycle" (dh_write h)
  | _ => []
  end.

(** texts joined by "; " *)
Fixpoint joined (ts : list string) : string :=
  match ts with [] => "" | [x] => x | x :: ts' => (x ++ "; " ++ joined ts')%string end.
(** the remarks: who takes too long or varies too much, who is off its rate *)
Definition remarks (high bad : list name) : list string :=
  (match high with [] => [] | _ => [high_text high] end) ++ (match bad with [] => [] | _ => [bad_text bad] end).

(** [b] has the thresholds of [a] or larger ones *)
Definition looser (a b : limit) : Prop :=
  mean_warn a <= mean_warn b /\ mean_err a <= mean_err b /\ sd_warn a <= sd_warn b /\ sd_err a <= sd_err b.
Definition unmeasured (s : dstats) : Prop := s_avg s = NaN /\ s_sd s = NaN.
Definition no_hw_active (hws : list dhw) : Prop := forall h, In h hws -> dh_lc h <> Active.
