(** ParserModel.v -- joint limits from the robot description.
    Models /repo/hardware_interface/src/component_parser.cpp (CP): retrieve_min_max_interface_values (810-837),
    set_custom_interface_values (844-902), update_interface_limits (911-972), the end of
    parse_control_resources_from_urdf (1082-1106), the enable_limits inheritance of parse_component_from_xml (469-495);
    /repo/joint_limits/include/joint_limits/joint_limits_urdf.hpp (JU): getJointLimits (35-64), getSoftJointLimits
    (73-86); /repo/joint_limits/include/joint_limits/joint_limits.hpp (JL): JointLimits (35-90).
    Doubles as in LimitsModel.  Simplifications: XML and text are parsed already: a min/max attribute is absent, text
    that stod rejects, or a number; logging is omitted. *)
From Coq Require Import ZArith Bool List String SpecFloat.
From Verif Require Import LimitsModel.
Import ListNotations.
Open Scope string_scope.
Open Scope list_scope.

Inductive text := Absent | Invalid | Number (v : F).
(** InterfaceInfo: name, min, max and the content of its <limits enable=...> tag (true without the tag) *)
Record itf := { i_name : string; i_min : text; i_max : text; i_enable : bool }.
(** a joint of the <ros2_control> tag; j_enable is the joint's own <limits enable=...> *)
Record joint := { j_enable : bool; j_cmds : list itf }.
(** parse_component_from_xml, CP 483: the command interfaces inherit the joint's switch *)
Definition inherit (j : joint) : joint :=
  {| j_enable := j_enable j;
     j_cmds := map (fun i => {| i_name := i_name i; i_min := i_min i; i_max := i_max i; i_enable := i_enable i && j_enable j |}) (j_cmds j) |}.

(** JointLimits, JL 35-69 *)
Record lim := { hp : bool; hv : bool; ha : bool; hd : bool; hj : bool; he : bool; wrap : bool;
                minp : F; maxp : F; maxv : F; maxa : F; maxd : F; maxj : F; maxe : F }.
Definition DBL_MAX : F := S754_finite false 9007199254740991 971.
(** the constructor, JL 37-53 *)
Definition lim0 : lim :=
  {| hp := false; hv := false; ha := false; hd := false; hj := false; he := false; wrap := false;
     minp := nan; maxp := nan; maxv := nan; maxa := nan; maxd := nan; maxj := nan; maxe := nan |}.
(** disable_all_limits, JL 71-86 *)
Definition disable_all (l : lim) : lim :=
  {| hp := false; hv := false; ha := false; hd := false; hj := false; he := false; wrap := wrap l;
     minp := fopp DBL_MAX; maxp := DBL_MAX; maxv := DBL_MAX; maxa := DBL_MAX; maxd := DBL_MAX; maxj := DBL_MAX; maxe := DBL_MAX |}.
Definition set_pos (l : lim) (b : bool) (lo hi : F) : lim :=
  {| hp := b; hv := hv l; ha := ha l; hd := hd l; hj := hj l; he := he l; wrap := wrap l;
     minp := lo; maxp := hi; maxv := maxv l; maxa := maxa l; maxd := maxd l; maxj := maxj l; maxe := maxe l |}.
Definition set_vel (l : lim) (b : bool) (m : F) : lim :=
  {| hp := hp l; hv := b; ha := ha l; hd := hd l; hj := hj l; he := he l; wrap := wrap l;
     minp := minp l; maxp := maxp l; maxv := m; maxa := maxa l; maxd := maxd l; maxj := maxj l; maxe := maxe l |}.
Definition set_eff (l : lim) (b : bool) (m : F) : lim :=
  {| hp := hp l; hv := hv l; ha := ha l; hd := hd l; hj := hj l; he := b; wrap := wrap l;
     minp := minp l; maxp := maxp l; maxv := maxv l; maxa := maxa l; maxd := maxd l; maxj := maxj l; maxe := m |}.
Definition set_acc (l : lim) (ba bd : bool) (a d : F) : lim :=
  {| hp := hp l; hv := hv l; ha := ba; hd := bd; hj := hj l; he := he l; wrap := wrap l;
     minp := minp l; maxp := maxp l; maxv := maxv l; maxa := a; maxd := d; maxj := maxj l; maxe := maxe l |}.
Definition set_jerk (l : lim) (b : bool) (m : F) : lim :=
  {| hp := hp l; hv := hv l; ha := ha l; hd := hd l; hj := b; he := he l; wrap := wrap l;
     minp := minp l; maxp := maxp l; maxv := maxv l; maxa := maxa l; maxd := maxd l; maxj := m; maxe := maxe l |}.

(** retrieve_min_max_interface_values, CP 810-837: None is false; min is converted before max, and the caller only
    looks at the results when true is returned *)
Definition retrieve (i : itf) (mn mx : F) : option (F * F) :=
  match i_min i, i_max i with
  | Absent, Absent => None
  | Invalid, _ | _, Invalid => None
  | Number a, Absent => Some (a, mx)
  | Absent, Number b => Some (mn, b)
  | Number a, Number b => Some (a, b)
  end.

(** set_custom_interface_values, CP 844-902 *)
Definition set_custom (i : itf) (l : lim) : lim :=
  if String.eqb (i_name i) "acceleration" then
    match retrieve i nan nan with
    | None => l
    | Some (dec, acc) =>
      let l1 := if isfinite dec then
                  set_acc l (ha l) (i_enable i) (if isfinite acc then maxa l else fabs (fabs dec)) (fabs dec)
                else l in
      if isfinite acc then
        set_acc l1 (i_enable i) (hd l1) acc (if isfinite (maxd l1) then maxd l1 else fabs acc)
      else l1
    end
  else if String.eqb (i_name i) "jerk" then
    match i_max i with
    | Absent => l
    | _ => match retrieve i nan nan with
           | Some (_, m) => if isfinite m then set_jerk l (i_enable i) (fabs m) else l
           | None => l
           end
    end
  else l.

(** the body of the loop in update_interface_limits, CP 919-970 *)
Definition tag (l : lim) (i : itf) : lim :=
  if String.eqb (i_name i) "position" then
    let lo := if hp l && i_enable i then minp l else fopp DBL_MAX in
    let hi := if hp l && i_enable i then maxp l else DBL_MAX in
    match (if i_enable i then retrieve i lo hi else None) with
    | Some (mn, mx) => set_pos l (true && i_enable i) (fmax mn lo) (fmin mx hi)
    | None => set_pos l (hp l && i_enable i) lo hi
    end
  else if String.eqb (i_name i) "velocity" then
    let m := if hv l then maxv l else DBL_MAX in
    match (if i_enable i then retrieve i (fopp m) m else None) with
    | Some (mn, mx) => set_vel l (true && i_enable i) (fmin (fmin (fabs mn) mx) m)
    | None => set_vel l (hv l && i_enable i) m
    end
  else if String.eqb (i_name i) "effort" then
    let m := if he l then maxe l else DBL_MAX in
    match (if i_enable i then retrieve i (fopp m) m else None) with
    | Some (mn, mx) => set_eff l (true && i_enable i) (fmin (fmin (fabs mn) mx) m)
    | None => set_eff l (he l && i_enable i) m
    end
  else set_custom i l.
(** update_interface_limits, CP 911-972 *)
Definition update_interface_limits (j : joint) (l : lim) : lim :=
  if negb (j_enable j) then disable_all l else fold_left tag (j_cmds j) l.

(** the URDF joint *)
Inductive jtype := Revolute | Prismatic | Continuous | OtherType.
Record ulim := { u_lower : F; u_upper : F; u_vel : F; u_eff : F }.
Record usafety := { f_lower : F; f_upper : F; f_kp : F; f_kv : F }.
Record ujoint := { u_type : jtype; u_limits : option ulim; u_safety : option usafety }.
(** getJointLimits, JU 35-64, on freshly constructed limits *)
Definition getJointLimits (u : ujoint) : lim :=
  match u_limits u with
  | None => lim0
  | Some x =>
    let p := match u_type u with Revolute | Prismatic => true | _ => false end in
    {| hp := p; hv := true; ha := false; hd := false; hj := false; he := true;
       wrap := match u_type u with Continuous => true | _ => false end;
       minp := if p then u_lower x else nan; maxp := if p then u_upper x else nan;
       maxv := fabs (u_vel x); maxa := nan; maxd := nan; maxj := nan; maxe := fabs (u_eff x) |}
  end.
(** one joint at the end of parse_control_resources_from_urdf, CP 1090-1104 *)
Definition joint_limits (u : ujoint) (j : joint) : lim := update_interface_limits (inherit j) (getJointLimits u).
Definition soft_limits (u : ujoint) (j : joint) : option sl :=
  match u_safety u with
  | None => None
  | Some s =>
    let l := joint_limits u j in
    Some {| s_minp := if hp l then fmax (f_lower s) (minp l) else f_lower s;
            s_maxp := if hp l then fmin (f_upper s) (maxp l) else f_upper s;
            s_kp := f_kp s; s_kv := f_kv s |}
  end.
