(** DiagModel.v -- what the controller manager publishes as diagnostics: the status and the values
    of its controllers, of its hardware components and of itself
    (controller_manager.cpp 4426-4815; registered with diagnostic_updater at 632-646).

    Numbers: a measurement is a rational, an infinity or NaN; the comparisons and the subtraction
    are those of IEEE arithmetic without rounding.  The text of the numbers (ostringstream,
    std::to_string, fmt) is not modelled: a value of the report carries the numbers themselves. *)
From Coq Require Import QArith Qabs NArith Lia.
From Verif Require Import Base Events.
Open Scope string_scope.
Open Scope list_scope.

(** ---- numbers *)
Inductive num := Fin (q : Q) | PInf | NInf | NaN.
Definition num_sub (a b : num) : num :=
  match a, b with
  | NaN, _ | _, NaN => NaN
  | Fin x, Fin y => Fin (x - y)
  | Fin _, PInf => NInf | Fin _, NInf => PInf
  | PInf, PInf => NaN | PInf, _ => PInf
  | NInf, NInf => NaN | NInf, _ => NInf
  end.
Definition num_abs (a : num) : num :=
  match a with Fin x => Fin (Qabs x) | PInf | NInf => PInf | NaN => NaN end.
(** [a > t] for a finite threshold [t] *)
Definition num_gt (a : num) (t : Q) : bool :=
  match a with Fin x => negb (Qle_bool x t) | PInf => true | NInf | NaN => false end.
Definition of_rate (r : N) : num := Fin (inject_Z (Z.of_N r)).
(** [1.e6 / rate] (division of doubles: infinite for rate 0) *)
Definition period_us (r : N) : num :=
  match r with N0 => PInf | Npos p => Fin (1000000 # p) end.

(** ---- what the callbacks read *)
(** MovingAverageStatistics::get_statistics: all NaN before the first measurement. *)
Record dstats := { s_avg : num; s_min : num; s_max : num; s_sd : num }.
(** controller_manager_parameters.yaml 1-180, parameters diagnostics.threshold.* *)
Record limit := { mean_warn : Q; mean_err : Q; sd_warn : Q; sd_err : Q }.
Record thresholds := { t_per : limit; t_exec : limit }.
Record dctrl := { dc_name : name; dc_lc : lc; dc_async : bool; dc_rate : N; dc_per : dstats; dc_exec : dstats }.
Record dcycle := { cy_per : dstats; cy_exec : dstats }.
(** HardwareComponentInfo; [None] = the statistics pointer is null (sensors are not written). *)
Record dhw := { dh_name : name; dh_lc : lc; dh_async : bool; dh_rate : N; dh_read : option dcycle; dh_write : option dcycle }.

(** ---- DiagnosticStatusWrapper (package diagnostic_updater, not in the repository):
    add appends a key and a value; summary sets level and message; mergeSummary raises the level
    to the maximum, appends "; text" if both levels are above OK, replaces the text if the new
    level is above the old one, and otherwise leaves the text. *)
Inductive level := OK | WARN | ERROR.
Definition lnum (l : level) : nat := match l with OK => 0 | WARN => 1 | ERROR => 2 end.
Definition lmax (a b : level) : level := if Nat.ltb (lnum a) (lnum b) then b else a.
Inductive value :=
| VLabel (l : lc)                          (* label of the life-cycle state *)
| VStats (s : dstats) (desired : option N) (* Avg [Min - Max], StdDev, and the desired rate *)
| VRate (r : N) | VNum (x : num).
Record stat := { st_level : level; st_msg : string; st_values : list (string * value) }.
Definition add (s : stat) (k : string) (v : value) : stat :=
  {| st_level := st_level s; st_msg := st_msg s; st_values := st_values s ++ [(k, v)] |}.
Definition summary (s : stat) (l : level) (m : string) : stat :=
  {| st_level := l; st_msg := m; st_values := st_values s |}.
Definition merge_summary (s : stat) (l : level) (m : string) : stat :=
  {| st_level := lmax (st_level s) l;
     st_msg := if Nat.ltb 0 (lnum l) && Nat.ltb 0 (lnum (st_level s))
               then (if String.eqb (st_msg s) "" then m else st_msg s ++ "; " ++ m)%string
               else if Nat.ltb (lnum (st_level s)) (lnum l) then m else st_msg s;
     st_values := st_values s |}.
(** the wrapper handed to a callback *)
Definition blank : stat := {| st_level := OK; st_msg := ""; st_values := [] |}.

(** ---- the common judgement, CM 4484-4528 and 4645-4698 *)
Definition is_active (l : lc) : bool := lc_eqb l Active.
(** ros2_control::add_item, helpers.hpp *)
Definition add_item (l : list name) (n : name) : list name := if mem n l then l else l ++ [n].
(** [err] is the mean error, [sd] the deviation: 0 fine, otherwise the level it asks for *)
Definition verdict (t : limit) (err sd : num) : level :=
  if num_gt err (mean_err t) || num_gt sd (sd_err t) then ERROR
  else if num_gt err (mean_warn t) || num_gt sd (sd_warn t) then WARN else OK.
(** level = ERROR;  if (level != ERROR) level = WARN; *)
Definition raise (l v : level) : level :=
  match v with ERROR => ERROR | WARN => match l with ERROR => ERROR | _ => WARN end | OK => l end.
(** the loop variables: level, the two lists of names, the report *)
Record acc := { a_level : level; a_high : list name; a_bad : list name; a_stat : stat }.
Definition with_stat (a : acc) (k : string) (v : value) : acc :=
  {| a_level := a_level a; a_high := a_high a; a_bad := a_bad a; a_stat := add (a_stat a) k v |}.
Definition judge_per (t : limit) (n : name) (rate : N) (s : dstats) (a : acc) : acc :=
  match verdict t (num_abs (num_sub (s_avg s) (of_rate rate))) (s_sd s) with
  | OK => a
  | v => {| a_level := raise (a_level a) v; a_high := a_high a; a_bad := add_item (a_bad a) n; a_stat := a_stat a |}
  end.
Definition max_exec (is_async : bool) (rate : N) : num := if is_async then period_us rate else Fin 0.
Definition judge_exec (t : limit) (n : name) (is_async : bool) (rate : N) (s : dstats) (a : acc) : acc :=
  match verdict t (num_sub (s_avg s) (max_exec is_async rate)) (s_sd s) with
  | OK => a
  | v => {| a_level := raise (a_level a) v; a_high := a_high a ++ [n]; a_bad := a_bad a; a_stat := a_stat a |}
  end.
(** "... : [ a b ]", CM 4535-4558 and 4716-4737 *)
Definition named (text : string) (ns : list name) : string :=
  (text ++ " : [ " ++ fold_left (fun s n => s ++ n ++ " ") ns "" ++ "]")%string.
Definition nl : string := String (Ascii.ascii_of_nat 10) "".
Definition high_text (ns : list name) : string := named (nl ++ "High execution jitter or mean error")%string ns.
Definition bad_text (ns : list name) : string := named (nl ++ "High periodicity jitter or mean error")%string ns.
Definition merge_lists (a : acc) (s : stat) : stat :=
  let s1 := match a_high a with [] => s | _ => merge_summary s (a_level a) (high_text (a_high a)) end in
  match a_bad a with [] => s1 | _ => merge_summary s1 (a_level a) (bad_text (a_bad a)) end.

(** ---- controller_activity_diagnostic_callback, CM 4426-4580 *)
Definition ctrl_one (cm_rate : N) (t : thresholds) (a : acc) (c : dctrl) : acc :=
  let a1 := with_stat a (dc_name c ++ ".state")%string (VLabel (dc_lc c)) in
  if is_active (dc_lc c) then
    let a2 := with_stat a1 (dc_name c ++ ".execution_time")%string (VStats (dc_exec c) None) in
    let a3 := if dc_async c || negb (N.eqb (dc_rate c) cm_rate)
              then judge_per (t_per t) (dc_name c) (dc_rate c) (dc_per c)
                     (with_stat a2 (dc_name c ++ ".periodicity")%string (VStats (dc_per c) (Some (dc_rate c))))
              else a2 in
    judge_exec (t_exec t) (dc_name c) (dc_async c) (dc_rate c) (dc_exec c) a3
  else a1.
Definition start_acc (s : stat) : acc := {| a_level := OK; a_high := []; a_bad := []; a_stat := s |}.
Definition controllers_report (cm_rate : N) (t : thresholds) (hws : list dhw) (cs : list dctrl) : stat :=
  let a := fold_left (ctrl_one cm_rate t) cs (start_acc blank) in
  let s0 := summary (a_stat a) OK
              (if forallb (fun c => is_active (dc_lc c)) cs then "All controllers are active" else "Not all controllers are active") in
  let s1 := merge_lists a s0 in
  if negb (existsb (fun h => is_active (dh_lc h)) hws)
  then merge_summary s1 ERROR "No hardware components are currently active to activate controllers"
  else match cs with [] => merge_summary s1 WARN "No controllers are currently loaded" | _ => s1 end.

(** ---- hardware_components_diagnostic_callback, CM 4582-4755.  [hws] lists the components in the
    iteration order of the unordered_map. *)
Definition hw_cycle (cm_rate : N) (t : thresholds) (h : dhw) (suffix : string) (cy : option dcycle) (a : acc) : acc :=
  match cy with
  | None => a
  | Some y =>
      let a1 := with_stat a (dh_name h ++ suffix ++ ".execution_time")%string (VStats (cy_exec y) None) in
      let a2 := if dh_async h || negb (N.eqb (dh_rate h) cm_rate)
                then judge_per (t_per t) (dh_name h) (dh_rate h) (cy_per y)
                       (with_stat a1 (dh_name h ++ suffix ++ ".periodicity")%string (VStats (cy_per y) (Some (dh_rate h))))
                else a1 in
      judge_exec (t_exec t) (dh_name h) (dh_async h) (dh_rate h) (cy_exec y) a2
  end.
Definition hw_one (cm_rate : N) (t : thresholds) (a : acc) (h : dhw) : acc :=
  let a1 := with_stat a (dh_name h ++ ".state")%string (VLabel (dh_lc h)) in
  if is_active (dh_lc h)
  then hw_cycle cm_rate t h ".write_cycle" (dh_write h) (hw_cycle cm_rate t h ".read_cycle" (dh_read h) a1)
  else a1.
Definition hardware_report (cm_rate : N) (t : thresholds) (rm_init : bool) (hws : list dhw) : stat :=
  if negb rm_init then summary blank ERROR "Resource manager is not yet initialized!"
  else match hws with
  | [] => summary blank ERROR "No hardware components are loaded!"
  | _ =>
      if negb (existsb (fun h => is_active (dh_lc h)) hws)
      then summary blank WARN "No hardware components are currently active"
      else
        let s0 := summary blank OK
                    (if forallb (fun h => is_active (dh_lc h)) hws
                     then "All hardware components are active" else "Not all hardware components are active") in
        let a := fold_left (hw_one cm_rate t) hws (start_acc s0) in
        merge_lists a (a_stat a)
  end.

(** ---- controller_manager_diagnostic_callback, CM 4757-4815 (the text of the numbers in the
    message is left out) *)
Definition bad_cm_text : string := "Controller Manager has bad periodicity".
Definition manager_report (cm_rate : N) (t : limit) (rm_init description : bool) (p : dstats) : stat :=
  let s := add (add (add (add (add blank "update_rate" (VRate cm_rate)) "periodicity.average" (VNum (s_avg p)))
             "periodicity.standard_deviation" (VNum (s_sd p))) "periodicity.min" (VNum (s_min p))) "periodicity.max" (VNum (s_max p)) in
  let s1 := if rm_init then summary s OK "Controller Manager is running"
            else if negb description then summary s WARN "Waiting for robot description...."
            else summary s ERROR "Resource Manager is not initialized properly!" in
  match verdict t (num_abs (num_sub (s_avg p) (of_rate cm_rate))) (s_sd p) with
  | OK => s1
  | v => merge_summary s1 v bad_cm_text
  end.
