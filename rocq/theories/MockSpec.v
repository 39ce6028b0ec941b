(** MockSpec.v -- vocabulary for C49 and C50. *)
From Coq Require Import List Bool String Ascii Arith ZArith SpecFloat.
Import ListNotations.
From Verif Require Import Base LimitsModel MockModel.
Open Scope string_scope.
Open Scope list_scope.
Open Scope nat_scope.

Fixpoint no_slash (s : string) : Prop :=
  match s with EmptyString => True | String c s => c <> "/"%char /\ no_slash s end.
(** A sane description: every interface is declared once, interface names contain no slash, joint interfaces belong to
    joints, and the tables hold exactly the exported interfaces. *)
Record sane (c : mcfg) (g : mst) : Prop := {
  sane_nodup : NoDup (exported_states c);
  sane_slash : forall pi, In pi (g_jst c ++ g_jcmd c ++ g_sst c ++ g_gst c ++ g_gcmd c) -> no_slash (snd pi);
  sane_joint : forall pi, In pi (g_jcmd c) -> In (fst pi) (g_joints c);
  sane_states : forall k, In k (exported_states c) <-> aget (m_st g) k <> None;
  sane_cmds : forall k, In k (exported_commands c) <-> aget (m_cmd g) k <> None }.

(** the commands for interface k that the reads since the last configure found, in order; [cur] is the command at the
    beginning *)
Fixpoint commands_read (k : name) (cur : F) (acc : list F) (ops : list mop) : list F :=
  match ops with
  | [] => acc
  | OCmd k' v :: ops => commands_read k (if String.eqb k' k then v else cur) acc ops
  | ORead _ :: ops => commands_read k cur (acc ++ [cur]) ops
  | OConf :: ops => commands_read k cur [] ops
  | OSwitch _ :: ops => commands_read k cur acc ops
  end.
Fixpoint last_finite (l : list F) : option F :=
  match l with
  | [] => None
  | v :: l => match last_finite l with Some w => Some w | None => if isfinite v then Some v else None end
  end.
(** joint p is made to follow another joint *)
Definition mimics (c : mcfg) (p : name) : Prop :=
  exists a b x y, In (a, b, x, y) (g_mimic c) /\ nth_error (g_joints c) a = Some p.
(** interfaces whose command is looped back as it is *)
Definition looped (c : mcfg) (pi : name * name) : Prop :=
  (In pi (g_jst c) /\ In (full pi) (exported_commands c) /\ snd pi <> HW_POS /\ snd pi <> g_custom c /\ ~ mimics c (fst pi)) \/
  (In pi (g_sst c) /\ g_msens c = true /\ ~ mimics c (fst pi)) \/
  (In pi (g_gst c) /\ (g_mgpio c = true \/ In pi (g_gcmd c)) /\ ~ mimics c (fst pi)).

(** C50: a key is a mode request for joint j *)
Definition asks (j : name) (i : name) (keys : list name) : Prop := In (full (j, i)) keys.
Definition mode_names : list (nat * name) := [(0, HW_POS); (1, HW_VEL); (2, HW_ACC)].
(** no joint's name occurs in a mode key of another joint *)
Definition distinguishable (joints : list name) : Prop :=
  NoDup joints /\ forall j j' i, In j joints -> In j' joints -> In i [HW_POS; HW_VEL; HW_ACC] ->
    contains (full (j, i)) j' = true -> j' = j.

Definition mimic_value (i : name) (mult off v : F) : F :=
  if String.eqb i HW_POS then fadd off (fmul mult v) else fmul mult v.
(** each joint mimics at most one other joint *)
Definition mimic_once (c : mcfg) : Prop := NoDup (map (fun m => nth_error (g_joints c) (fst (fst (fst m)))) (g_mimic c)).
(** the state expected when x is commanded on interface i of a joint whose mode is i *)
Definition mode_value (c : mcfg) (i : name) (x : F) : F := if String.eqb i HW_POS then fadd x (pos_off c) else x.

(** *** dynamics mode: (position, velocity, acceleration) of a joint, and one backward Euler step of length [dt] towards
    the command [x] of the selected mode *)
Definition joint_state (st : alist F) (j : name) (s : F * F * F) : Prop :=
  let '(p, v, a) := s in aget st (full (j, HW_POS)) = Some p /\ aget st (full (j, HW_VEL)) = Some v /\ aget st (full (j, HW_ACC)) = Some a.
Definition finite3 (s : F * F * F) : Prop := let '(p, v, a) := s in isfinite p = true /\ isfinite v = true /\ isfinite a = true.
Definition commanded (cmd : alist F) (j : name) (mode : nat) (x : F) : Prop :=
  match mode with
  | 0 => aget cmd (full (j, HW_POS)) = Some x
  | 1 => aget cmd (full (j, HW_VEL)) = Some x
  | 2 => aget cmd (full (j, HW_ACC)) = Some x
  | _ => False
  end.
Definition moves (c : mcfg) (dt : F) (mode : nat) (x : F) (s s' : F * F * F) : Prop :=
  let '(p, v, a) := s in let '(p', v', a') := s' in
  match mode with
  | 0 => p' = fadd x (pos_off c) /\ v' = fdiv (fsub p' p) dt /\ a' = fdiv (fsub v' v) dt
  | 1 => p' = fadd p (fmul v' dt) /\ v' = x /\ a' = fdiv (fsub x v) dt
  | 2 => p' = fadd p (fmul v' dt) /\ v' = fadd v (fmul x dt) /\ a' = x
  | _ => False
  end.
