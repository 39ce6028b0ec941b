(** ParamModel.v -- limits of a joint limiter from parameters, and their update at run time.
    Models /repo/joint_limits/include/joint_limits/joint_limits_rosparam.hpp (JR) 88-135 (declare), 231-375 (get_joint_limits),
    439-640 (check_for_limits_update) and joint_limiter_interface.hpp (JI) 55-120 (init, the parameter callback) and
    200-206 (enforce).  Simplifications: the realtime buffer hands over the value last written (its try_lock can miss a
    write that is just happening); soft limits and logging are left out; a parameter value is a double, a bool or of some
    other type. *)
From Coq Require Import List Bool String.
From Coq Require Import Floats.SpecFloat.
From Verif Require LimitsModel.
Import ListNotations.
Open Scope string_scope.
Open Scope list_scope.

Notation F := LimitsModel.F.
(** operator== on double *)
Definition feq (a b : F) : bool := SFeqb a b.

(** joint_limits.hpp 35-75, fields as enumerations *)
Inductive nf := MinP | MaxP | MaxV | MaxA | MaxD | MaxJ | MaxE.
Inductive bf := HasP | HasV | HasA | HasD | HasJ | HasE | Wrap.
Definition nf_eqb (a b : nf) : bool := match a, b with
  | MinP, MinP | MaxP, MaxP | MaxV, MaxV | MaxA, MaxA | MaxD, MaxD | MaxJ, MaxJ | MaxE, MaxE => true | _, _ => false end.
Definition bf_eqb (a b : bf) : bool := match a, b with
  | HasP, HasP | HasV, HasV | HasA, HasA | HasD, HasD | HasJ, HasJ | HasE, HasE | Wrap, Wrap => true | _, _ => false end.
Definition nf_name (f : nf) : string := match f with
  | MinP => "min_position" | MaxP => "max_position" | MaxV => "max_velocity" | MaxA => "max_acceleration"
  | MaxD => "max_deceleration" | MaxJ => "max_jerk" | MaxE => "max_effort" end.
Definition bf_name (f : bf) : string := match f with
  | HasP => "has_position_limits" | HasV => "has_velocity_limits" | HasA => "has_acceleration_limits"
  | HasD => "has_deceleration_limits" | HasJ => "has_jerk_limits" | HasE => "has_effort_limits" | Wrap => "angle_wraparound" end.
Definition nfs : list nf := [MinP; MaxP; MaxV; MaxA; MaxD; MaxJ; MaxE].
Definition bfs : list bf := [HasP; HasV; HasA; HasD; HasJ; HasE; Wrap].

Record lims := { num : nf -> F; flag : bf -> bool }.
Definition set_num (l : lims) (f : nf) (x : F) : lims := {| num := fun g => if nf_eqb g f then x else num l g; flag := flag l |}.
Definition set_flag (l : lims) (f : bf) (b : bool) : lims := {| num := num l; flag := fun g => if bf_eqb g f then b else flag l g |}.
(** JointLimits::JointLimits *)
Definition unset : lims := {| num := fun _ => LimitsModel.nan; flag := fun _ => false |}.

Inductive value := VDouble (x : F) | VBool (b : bool) | VOther.
Definition param : Type := (string * value)%type.
(** JR 444: param_base_name + "." + field *)
Definition pname (joint field : string) : string := "joint_limits." ++ joint ++ "." ++ field.

(** JR 448-500: the chain of else-ifs of the first loop; the callback's `changed` is overwritten, not or-ed *)
Definition number_step (joint : string) (acc : lims * bool) (p : param) : lims * bool :=
  match find (fun f => String.eqb (fst p) (pname joint (nf_name f))) nfs with
  | Some f => match snd p with
              | VDouble x => (set_num (fst acc) f x, negb (feq (num (fst acc) f) x))
              | _ => acc
              end
  | None => acc
  end.
(** the number that a flag needs *)
Definition bound_of (f : bf) : nf := match f with HasP => MinP | HasV => MaxV | HasA => MaxA | HasD => MaxD | HasJ => MaxJ | HasE => MaxE | Wrap => MinP end.
(** JR 502-635: the second loop *)
Definition flag_step (joint : string) (acc : lims * bool) (p : param) : lims * bool :=
  match find (fun f => String.eqb (fst p) (pname joint (bf_name f))) bfs with
  | Some f =>
      match snd p with
      | VBool b =>
          let l := set_flag (fst acc) f b in
          match f with
          | HasP => if b then
                      if LimitsModel.isnan (num l MinP) || LimitsModel.isnan (num l MaxP) then (set_flag l HasP false, snd acc)
                      else if LimitsModel.fle (num l MaxP) (num l MinP) then (set_flag l HasP false, snd acc)
                      else (l, true)
                    else (l, snd acc)
          | Wrap => if b && flag l HasP then (set_flag l Wrap false, snd acc) else (l, true)
          | _ => if b && LimitsModel.isnan (num l (bound_of f)) then (set_flag l f false, snd acc) else (l, true)
          end
      | _ => acc
      end
  | None => acc
  end.
Definition check_update (joint : string) (ps : list param) (l : lims) : lims * bool :=
  fold_left (flag_step joint) ps (fold_left (number_step joint) ps (l, false)).

(** the limiter: names of the joints, the limits in use (joint_limits_), the limits in the realtime buffer (updated_limits_) *)
Record limiter := { joints : list string; in_use : list lims; buffered : list lims }.
(** JI 84-103: the parameter callback; it starts from the limits in use *)
Definition on_set (s : limiter) (ps : list param) : limiter :=
  let res := map (fun jl => check_update (fst jl) ps (snd jl)) (combine (joints s) (in_use s)) in
  if existsb snd res then {| joints := joints s; in_use := in_use s; buffered := map fst res |} else s.
(** JI 200-206: what enforce does before on_enforce *)
Definition on_enforce (s : limiter) : limiter := {| joints := joints s; in_use := buffered s; buffered := buffered s |}.
Inductive op := Set_ (ps : list param) | Enforce.
Definition run1 (s : limiter) (o : op) : limiter := match o with Set_ ps => on_set s ps | Enforce => on_enforce s end.
Definition run (s : limiter) (os : list op) : limiter := fold_left run1 os s.

(** the parameter server: the declared parameters with their values *)
Definition server := string -> option value.
(** JR 39-50, 88-135: declare what is missing; None: an exception (wrong type), declare_parameters answers false *)
Definition declare1 (sv : server) (n : string) (dflt : value) : option server :=
  match sv n, dflt with
  | None, _ => Some (fun m => if String.eqb m n then Some dflt else sv m)
  | Some (VDouble _), VDouble _ => Some sv
  | Some (VBool _), VBool _ => Some sv
  | Some _, _ => None
  end.
Fixpoint declare_all (sv : server) (ns : list (string * value)) : option server :=
  match ns with [] => Some sv | (n, d) :: r => match declare1 sv n d with Some sv' => declare_all sv' r | None => None end end.
Definition declared (joint : string) : list (string * value) :=
  map (fun f => (pname joint (nf_name f), VDouble LimitsModel.nan)) nfs ++ map (fun f => (pname joint (bf_name f), VBool false)) bfs.
Definition declare_parameters (sv : server) (joint : string) : option server := declare_all sv (declared joint).

Definition get_bool (sv : server) (joint : string) (f : bf) : option bool := match sv (pname joint (bf_name f)) with Some (VBool b) => Some b | _ => None end.
Definition get_num (sv : server) (joint : string) (f : nf) : option F := match sv (pname joint (nf_name f)) with Some (VDouble x) => Some x | _ => None end.
(** JR 290-365, one kind of limit with a single bound *)
Definition get_one (sv : server) (joint : string) (f : bf) (l : lims) : lims :=
  match get_bool sv joint f with
  | Some b => match b, get_num sv joint (bound_of f) with
              | true, Some x => set_num (set_flag l f true) (bound_of f) x
              | _, _ => set_flag l f false
              end
  | None => l
  end.
(** JR 262-288: position limits and angle_wraparound *)
Definition get_pos (sv : server) (joint : string) (l : lims) : lims :=
  match get_bool sv joint HasP with
  | Some b => match b, get_num sv joint MinP, get_num sv joint MaxP with
              | true, Some lo, Some hi => set_num (set_num (set_flag l HasP true) MinP lo) MaxP hi
              | _, _, _ => let l := set_flag l HasP false in
                           match get_bool sv joint Wrap with Some w => set_flag l Wrap w | None => l end
              end
  | None => l
  end.
Definition get_joint_limits (sv : server) (joint : string) (l : lims) : lims :=
  get_one sv joint HasE (get_one sv joint HasJ (get_one sv joint HasD (get_one sv joint HasA (get_one sv joint HasV (get_pos sv joint l))))).
(** JI 55-82: init with parameters; None: init answers false *)
Fixpoint init_all (sv : server) (js : list string) : option (server * list lims) :=
  match js with
  | [] => Some (sv, [])
  | j :: r => match declare_parameters sv j with
              | None => None
              | Some sv' => match init_all sv' r with Some (sv2, ls) => Some (sv2, get_joint_limits sv' j unset :: ls) | None => None end
              end
  end.
Definition init (sv : server) (js : list string) : option limiter :=
  match init_all sv js with Some (_, ls) => Some {| joints := js; in_use := ls; buffered := ls |} | None => None end.
