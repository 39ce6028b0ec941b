(** MockModel.v -- mock_components::GenericSystem, hardware_interface/src/mock_components/generic_system.cpp (GS).
    Doubles as in LimitsModel.v.  Simplifications: all interfaces are of type double (BOOL interfaces are copied
    without a check, GS 359-363); parameters are already parsed (on_init, GS 28-178); the handles of hardware and
    system are the same objects, so a command is a value in a table. *)
From Coq Require Import List Bool String Arith ZArith SpecFloat.
Import ListNotations.
From Verif Require Import Base LimitsModel.
Open Scope string_scope.
Open Scope list_scope.
Open Scope nat_scope.

Definition HW_POS : name := "position".
Definition HW_VEL : name := "velocity".
Definition HW_ACC : name := "acceleration".
Definition HW_EFF : name := "effort".
(** InterfaceDescription::get_name, hardware_info.hpp: prefix/interface *)
Definition full (pi : name * name) : name := (fst pi ++ "/" ++ snd pi)%string.
Definition isinf (a : F) : bool := match a with S754_infinity _ => true | _ => false end.

(** The hardware description and the parameters of on_init (GS 28-178).  The interface lists are in the order of
    the exported vectors, which come from unordered maps (hardware_component_interface.cpp:321-345, 383-396): any order. *)
Record mcfg := MCfg { g_joints : list name;
  g_jst : list (name * name); g_jcmd : list (name * name);       (* joint state / command interfaces *)
  g_sst : list (name * name);                                    (* sensor state interfaces *)
  g_gst : list (name * name); g_gcmd : list (name * name);       (* gpio state / command interfaces *)
  g_msens : bool; g_mgpio : bool; g_disabled : bool; g_dyn : bool;
  g_off : F; g_custom : name; g_mimic : list (nat * nat * F * F) }.
Record mst := MSt { m_cmd : alist F; m_st : alist F; m_mode : list nat }.
Inductive mout := GOk | GError | GThrow.

(** skip_interfaces_, GS 86-90 *)
Definition skipped (c : mcfg) (i : name) : bool :=
  if g_dyn c then mem i [HW_POS; HW_VEL; HW_ACC] else mem i [HW_POS].
(** the offset added to positions, GS 471-474, 500-502 *)
Definition pos_off (c : mcfg) : F := if String.eqb (g_custom c) "" then g_off c else fzero.
Definition has (m : alist F) (k : name) : bool := is_some (aget m k).
Definition getf (m : alist F) (k : name) : F := match aget m k with Some v => v | None => nan end.

(** on_configure, GS 303-330 *)
Definition conf1 (c : mcfg) (st : alist F) (pi : name * name) : alist F :=
  let k := full pi in
  let st := if isnan (getf st k) then aset st k fzero else st in
  if String.eqb (snd pi) HW_POS && String.eqb (g_custom c) "" then aset st k (fadd (getf st k) (g_off c)) else st.
Definition resize (n : nat) (l : list nat) : list nat := firstn n l ++ repeat 0 (n - List.length l).
Definition configure (c : mcfg) (g : mst) : mst :=
  MSt (m_cmd g) (fold_left (conf1 c) (g_jst c) (m_st g)) (resize (List.length (g_joints c)) (m_mode g)).

(** one joint in dynamics mode, GS 379-485 *)
Definition v3 := (F * F * F)%type.
Definition dyn_values (c : mcfg) (dt : F) (mode : nat) (s : v3) (cmd : v3) : v3 :=
  let '(p, v, a) := s in
  let '(cp, cv, ca) := cmd in
  match mode with
  | 2 => let v := if isnan v then fzero else v in
         let a := if isfinite ca then ca else a in
         let v := fadd v (if isnan a then fzero else fmul a dt) in
         (fadd p (if isfinite v then fmul v dt else fadd fzero (pos_off c)), v, a)
  | 1 => let '(v, a) := if isfinite cv
                        then (cv, fdiv (fsub cv (if isfinite v then v else fzero)) dt) else (v, a) in
         (fadd p (if isfinite v then fmul v dt else fadd fzero (pos_off c)), v, a)
  | 0 => if isfinite cp then
           let p' := fadd cp (pos_off c) in
           let v' := fdiv (fsub p' p) dt in
           (p', v', fdiv (fsub v' (if isfinite v then v else fzero)) dt)
         else (p, v, a)
  | _ => (p, v, a)
  end.
Definition put (st : alist F) (k : name) (v : F) : alist F :=
  if isfinite v && has st k then aset st k v else st.
Definition dyn_joint (c : mcfg) (dt : F) (cmd : alist F) (st : alist F) (jm : name * nat) : alist F :=
  let '(j, mode) := jm in
  let k i := full (j, i) in
  let '(p, v, a) := dyn_values c dt mode
      (getf st (k HW_POS), getf st (k HW_VEL), getf st (k HW_ACC))
      (getf cmd (k HW_POS), getf cmd (k HW_VEL), getf cmd (k HW_ACC)) in
  put (put (put st (k HW_POS) p) (k HW_VEL) v) (k HW_ACC) a.
(** the loop over the joint commands without dynamics, GS 488-504 *)
Definition follow1 (c : mcfg) (cmd : alist F) (st : alist F) (pi : name * name) : alist F :=
  if String.eqb (snd pi) HW_POS && has st (full pi) && isfinite (getf cmd (full pi))
  then aset st (full pi) (fadd (getf cmd (full pi)) (pos_off c)) else st.
Definition joints_pass (c : mcfg) (dt : F) (cmd : alist F) (modes : list nat) (st : alist F) : alist F :=
  if g_dyn c then fold_left (dyn_joint c dt cmd) (combine (g_joints c) modes) st
  else fold_left (fun st _ => fold_left (follow1 c cmd) (g_jcmd c) st) (g_joints c) st.
(** mirror_command_to_state, GS 339-369 *)
Definition mirror (cmd : alist F) (st : alist F) (k : name) : alist F * mout :=
  match aget cmd k with
  | None => (st, GThrow)
  | Some v => if isinf v then (st, GError) else if isfinite v then (aset st k v, GOk) else (st, GOk)
  end.
(** the loop over the joint states, GS 509-543 *)
Definition loop1 (c : mcfg) (cmd : alist F) (st : alist F) (pi : name * name) : alist F * mout :=
  if skipped c (snd pi) then (st, GOk)
  else
    let '(st, o) := if has cmd (full pi) then mirror cmd st (full pi) else (st, GOk) in
    match o with
    | GOk => if String.eqb (g_custom c) (snd pi) then
               match aget cmd (full (fst pi, HW_POS)) with
               | None => (st, GThrow)
               | Some v => let v := fadd v (g_off c) in if isfinite v then (aset st (full pi) v, GOk) else (st, GOk)
               end
             else (st, GOk)
    | _ => (st, o)
    end.
Fixpoint each {A} (f : alist F -> A -> alist F * mout) (st : alist F) (l : list A) : alist F * mout :=
  match l with
  | [] => (st, GOk)
  | x :: l => let '(st, o) := f st x in match o with GOk => each f st l | _ => (st, o) end
  end.
(** the mimic joints, GS 545-573; [joints.at] throws on a bad index *)
Definition mimic1 (c : mcfg) (st : alist F) (m : nat * nat * F * F) : alist F * mout :=
  let '(a, b, mult, off) := m in
  match nth_error (g_joints c) a, nth_error (g_joints c) b with
  | Some ja, Some jb =>
      let go (i : name) (f : F -> F) (so : alist F * mout) :=
        match so with
        | (st, GOk) => if has st (full (ja, i)) then
                         match aget st (full (jb, i)) with Some v => (aset st (full (ja, i)) (f v), GOk) | None => (st, GThrow) end
                       else (st, GOk)
        | _ => so
        end in
      go HW_ACC (fun v => fmul mult v) (go HW_VEL (fun v => fmul mult v)
        (go HW_POS (fun v => fadd off (fmul mult v)) (st, GOk)))
  | _, _ => (st, GThrow)
  end.
Definition andthen (so : alist F * mout) (f : alist F -> alist F * mout) : alist F * mout :=
  match so with (st, GOk) => f st | _ => so end.
(** the gpio and sensor loops, GS 575-622 *)
Definition gpio1 (cmd : alist F) (st : alist F) (pi : name * name) : alist F * mout :=
  if has st (full pi) then mirror cmd st (full pi) else (st, GOk).
Definition mirror1 (cmd : alist F) (st : alist F) (pi : name * name) := mirror cmd st (full pi).
(** read, GS 331-625 *)
Definition read_st (c : mcfg) (dt : F) (cmd : alist F) (modes : list nat) (st : alist F) : alist F * mout :=
  if g_disabled c then (st, GOk) else
  andthen (each (loop1 c cmd) (joints_pass c dt cmd modes st) (g_jst c)) (fun st =>
  andthen (each (mimic1 c) st (g_mimic c)) (fun st =>
  andthen (if g_msens c then each (mirror1 cmd) st (g_sst c) else (st, GOk)) (fun st =>
  if g_mgpio c then each (mirror1 cmd) st (g_gst c) else each (gpio1 cmd) st (g_gcmd c)))).

(** key.find(joint.name) != npos, GS 226, 287 *)
Definition contains (key nm : name) : bool := is_some (String.index 0 nm key).
Fixpoint find_joint (joints : list name) (key : name) (n : nat) : option (nat * name) :=
  match joints with
  | [] => None
  | j :: joints => if contains key j then Some (n, j) else find_joint joints key (S n)
  end.
Definition once : N := 1000000%N.
(** prepare_command_mode_switch, GS 200-275: the counter of one joint after one key *)
Definition prep_count (j key : name) (n : N) : N :=
  let n := if N.eqb n 0 then once else n in
  let n := if String.eqb key (full (j, HW_POS)) then (n + 1)%N else n in
  let n := if String.eqb key (full (j, HW_VEL)) then (n + 1)%N else n in
  if String.eqb key (full (j, HW_ACC)) then (n + 1)%N else n.
Fixpoint map_nth (l : list N) (i : nat) (f : N -> N) : list N :=
  match l, i with
  | [], _ => [] | x :: l, 0 => f x :: l | x :: l, S i => x :: map_nth l i f end.
Definition prep1 (joints : list name) (cnt : list N) (key : name) : list N :=
  match find_joint joints key 0 with Some (i, j) => map_nth cnt i (prep_count j key) | None => cnt end.
Definition prepare (c : mcfg) (start : list name) : bool :=
  if g_dyn c then
    forallb (fun n => negb (N.eqb n once) && negb (N.ltb (once + 1) n))
      (fold_left (prep1 (g_joints c)) start (repeat 0%N (List.length (g_joints c))))
  else true.
(** perform_command_mode_switch, GS 277-301 *)
Definition mode_of (j key : name) (m : nat) : nat :=
  let m := if String.eqb key (full (j, HW_POS)) then 0 else m in
  let m := if String.eqb key (full (j, HW_VEL)) then 1 else m in
  if String.eqb key (full (j, HW_ACC)) then 2 else m.
Fixpoint set_mode (l : list nat) (i : nat) (f : nat -> nat) : list nat :=
  match l, i with
  | [], _ => [] | x :: l, 0 => f x :: l | x :: l, S i => x :: set_mode l i f end.
Definition perf1 (joints : list name) (modes : list nat) (key : name) : list nat :=
  match find_joint joints key 0 with Some (i, j) => set_mode modes i (mode_of j key) | None => modes end.
Definition perform (c : mcfg) (g : mst) (start : list name) : mst :=
  MSt (m_cmd g) (m_st g) (if g_dyn c then fold_left (perf1 (g_joints c)) start (m_mode g) else m_mode g).

(** What happens to the component: lifecycle, a controller writing a command, a read, a mode switch.  A read that does
    not return OK ends the history (the resource manager takes the hardware out). *)
Inductive mop := OConf | OCmd (k : name) (v : F) | ORead (dt : F) | OSwitch (start : list name).
Definition mstep (c : mcfg) (g : mst) (o : mop) : option mst :=
  match o with
  | OConf => Some (configure c g)
  | OCmd k v => if has (m_cmd g) k then Some (MSt (aset (m_cmd g) k v) (m_st g) (m_mode g)) else Some g
  | ORead dt => match read_st c dt (m_cmd g) (m_mode g) (m_st g) with
                | (st, GOk) => Some (MSt (m_cmd g) st (m_mode g)) | _ => None end
  | OSwitch l => if prepare c l then Some (perform c g l) else Some g
  end.
Fixpoint mrun (c : mcfg) (g : mst) (l : list mop) : option mst :=
  match l with [] => Some g | o :: l => match mstep c g o with Some g => mrun c g l | None => None end end.
(** the exported interfaces; unlisted commands, GS 180-198, 627-660 *)
Definition exported_commands (c : mcfg) : list name :=
  map full (g_jcmd c ++ g_gcmd c) ++
  (if g_msens c then map full (g_sst c) else []) ++
  (if g_mgpio c then filter (fun k => negb (mem k (map full (g_gcmd c)))) (map full (g_gst c)) else []).
Definition exported_states (c : mcfg) : list name := map full (g_jst c ++ g_sst c ++ g_gst c).
