(** EnforceSpec.v -- words for the statements about command limits in the resource manager. *)
From Coq Require Import ZArith Bool List String SpecFloat.
From Verif Require Import Base LimitsModel LimitsSpec FloatReal EnforceModel.
Import ListNotations.
Open Scope string_scope.
Open Scope list_scope.

(** the resource manager after these operations, started with the limits of this robot description *)
Definition after (infos : list hwinfo) (period : F) (ops : list op) : world :=
  run_ops (import_limiters infos (empty_world period)) ops.

(** the value of a command interface; whether a controller holds it; a measured value *)
Definition value (w : world) (n : name) : option F := option_map c_val (aget (w_cmds w) n).
Definition held (w : world) (n : name) : Prop := aget (w_claims w) n = Some true.
Definition measured (w : world) (n : name) : option F := aget (w_states w) n.

(** the description gives limits [l] for joint [j] in hardware [hw] and does not disable them *)
Definition gives_limits (infos : list hwinfo) (hw j : name) (l : jl) : Prop :=
  exists hi, In hi infos /\ hi_name hi = hw /\ In (j, l) (hi_limits hi) /\ forall b, In (j, b) (hi_joints hi) -> b = true.
Definition limited_joint (infos : list hwinfo) (j : name) : Prop := exists hw l, gives_limits infos hw j l.
Definition limited_interface (infos : list hwinfo) (n : name) : Prop :=
  exists j k, n = itf j k /\ In k kinds /\ limited_joint infos j.

(** the limits of the joint in the only hardware that has it, without soft limits *)
Definition only_limits (infos : list hwinfo) (hw j : name) (l : jl) : Prop :=
  gives_limits infos hw j l /\ (forall hw' l', gives_limits infos hw' j l' -> hw' = hw /\ l' = l) /\
  (forall hi, In hi infos -> aget (hi_soft hi) j = None).
(** sensible limits *)
Definition sensible (l : jl) : Prop :=
  doubles_jl double l /\ l_hv l = true /\ pos_limits_ok l /\ vel_limits_ok l /\ (l_ha l = true -> acc_limits_ok l).
(** a position command inside the position limits, a velocity command below the maximum velocity, an effort command below
    the maximum effort *)
Definition bounded (l : jl) (k : name) (v : F) : Prop :=
  (k = "position" -> within (l_minp l) v (l_maxp l)) /\
  (k = "velocity" -> within (fopp (l_maxv l)) v (l_maxv l)) /\
  (k = "effort" -> l_he l = true -> fle fzero (l_maxe l) = true -> within (fopp (l_maxe l)) v (l_maxe l)).
Definition bounded_kinds : list name := ["position"; "velocity"; "effort"].

(** normal operation of joint [j]: what is measured for it lies inside its limits, commands are NaN or finite, cycle periods
    positive; when accelerations are limited its velocity is measured; what is called like an interface of the joint is one *)
Definition measured_ok (l : jl) (j n : name) (v : F) : Prop :=
  double v /\ (n = itf j "position" -> within (l_minp l) v (l_maxp l)) /\
  (n = itf j "velocity" -> within (fopp (l_maxv l)) v (l_maxv l)).
Definition ordinary (v : F) : Prop := double v /\ (finite v \/ isnan v = true).
Definition velocity_known (l : jl) (j : name) (w : world) : Prop := l_ha l = true -> measured w (itf j "velocity") <> None.
Definition op_ok (j : name) (l : jl) (w : world) (o : op) : Prop :=
  match o with
  | OState n v => measured_ok l j n v
  | OAddCmd prefix kind v => ordinary v /\ (forall k, In k kinds -> itf prefix kind = itf j k -> prefix = j)
  | OHwSet _ v => ordinary v
  | OSet _ v _ => ordinary v /\ velocity_known l j w
  | OEnforce _ _ dt => dt_ok dt /\ double dt /\ velocity_known l j w
  | OClaim _ _ | ORemove _ => True
  end.
Fixpoint calm (j : name) (l : jl) (w : world) (os : list op) : Prop :=
  match os with [] => True | o :: r => op_ok j l w o /\ calm j l (fst (step w o)) r end.
