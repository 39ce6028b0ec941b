(** SemSpec.v -- vocabulary for C66: what a semantic component should report. *)
From Coq Require Import List Bool String Arith.
From Verif Require Import OrderedModel OrderedSpec SemModel.
Import ListNotations.
Open Scope string_scope.
Open Scope list_scope.

Section S.
Context {V : Type}.
(** the last value that could be read from the interface at position [p] in the calls [rds], [d] if there is none *)
Definition latest (rds : list (nat -> option V)) (p : nat) (d : V) : V :=
  fold_left (fun acc rd => match rd p with Some v => v | None => acc end) rds d.
(** several calls of get_values_as_message in a row; the sensor afterwards and the last message *)
Fixpoint calls (fields : list string) (rds : list (nat -> option V)) (s : sensor V) (last : list (string * V)) : option (sensor V * list (string * V)) :=
  match rds with
  | [] => Some (s, last)
  | rd :: rds => match message fields rd s with Some (s', msg) => calls fields rds s' msg | None => None end
  end.
(** several readings of a sensor in a row (each accessor reads first) *)
Fixpoint updates (rds : list (nat -> option V)) (s : sensor V) : option (sensor V) :=
  match rds with [] => Some s | rd :: rds => match update_data rd s with Some s' => updates rds s' | None => None end end.
(** the sensor [s0] called [name], given the interfaces [us], answers every call; field "f" of the last answer is the latest
    value of the interface "name/f" (initially what the sensor object remembers for it) *)
Definition reports (fields : list string) (name : string) (s0 : sensor V) : Prop := forall us s rds rd,
  distinct us -> assign us s0 = (s, true) ->
  exists s' msg, calls fields (rds ++ [rd]) s [] = Some (s', msg) /\ map fst msg = fields /\
  forall f v, In (f, v) msg -> exists p d, asks_for us "" (name ++ "/" ++ f) p /\ In (f, d) (combine fields (s_data s0)) /\ v = latest (rds ++ [rd]) p d.
(** [l] lists the values of the fields [fs] of the message, in this order *)
Definition values_of (msg : list (string * V)) (fs : list string) (l : list V) : Prop := Forall2 (fun f v => In (f, v) msg) fs l.
(** a value that is not remembered *)
Definition now (rd : nat -> option V) (conv : V -> V) (unread : V) (p : nat) : V := match rd p with Some v => conv v | None => unread end.
End S.
Section G.
Context {V : Type}.
(** what the field [f] of a GPS message should be, given the answer of the interface "name/f" at position [p] and the
    remembered covariances *)
Definition gps_value (to_i8 to_u16 : V -> V) (nan max_i8 max_u16 : V) (rd : nat -> option V) (mem : list (string * V)) (f : string) (p : nat) (v : V) : Prop :=
  if String.eqb f "status" then v = now rd to_i8 max_i8 p
  else if String.eqb f "service" then v = now rd to_u16 max_u16 p
  else if existsb (String.eqb f) ["latitude"; "longitude"; "altitude"] then v = now rd (fun v => v) nan p
  else exists d, In (f, d) mem /\ v = now rd (fun v => v) d p.
End G.
