(** ParserSpec.v -- which values the description permits for a joint. *)
From Coq Require Import ZArith Bool List String SpecFloat.
From Verif Require Import LimitsModel ParserModel.
Import ListNotations.
Open Scope string_scope.
Open Scope list_scope.

(** the values a (hard) limit record admits *)
Definition pos_allowed (l : lim) (p : F) : Prop := hp l = true -> fle (minp l) p = true /\ fle p (maxp l) = true.
Definition vel_allowed (l : lim) (v : F) : Prop := hv l = true -> fle (fabs v) (maxv l) = true.
Definition eff_allowed (l : lim) (v : F) : Prop := he l = true -> fle (fabs v) (maxe l) = true.

(** what the URDF admits by itself *)
Definition urdf_pos (u : ujoint) (p : F) : Prop :=
  forall x, u_limits u = Some x -> u_type u = Revolute \/ u_type u = Prismatic ->
  fle (u_lower x) p = true /\ fle p (u_upper x) = true.
Definition urdf_vel (u : ujoint) (v : F) : Prop := forall x, u_limits u = Some x -> fle (fabs v) (fabs (u_vel x)) = true.
Definition urdf_eff (u : ujoint) (v : F) : Prop := forall x, u_limits u = Some x -> fle (fabs v) (fabs (u_eff x)) = true.

(** what one command interface tag admits; a tag with unreadable text says nothing *)
Definition readable (i : itf) : Prop := i_min i <> Invalid /\ i_max i <> Invalid.
Definition tag_range (i : itf) (p : F) : Prop := readable i ->
  (forall a, i_min i = Number a -> fle a p = true) /\ (forall b, i_max i = Number b -> fle p b = true).
(** for velocity and effort the bounds are on the magnitude *)
Definition tag_magnitude (i : itf) (v : F) : Prop := readable i ->
  (forall a, i_min i = Number a -> fle (fabs v) (fabs a) = true) /\ (forall b, i_max i = Number b -> fle (fabs v) b = true).

(** limits are not switched off: neither for the joint nor for a command interface of this kind *)
Definition enabled (j : joint) (kind : string) : Prop :=
  j_enable j = true /\ forall i, In i (j_cmds j) -> i_name i = kind -> i_enable i = true.
Definition given (j : joint) (kind : string) : Prop := exists i, In i (j_cmds j) /\ i_name i = kind.

(** a finite double; the description contains no NaN (a parsed number never is one) *)
Definition double (p : F) : Prop := fle (fopp DBL_MAX) p = true /\ fle p DBL_MAX = true.
Definition tidy_text (t : text) : Prop := forall v, t = Number v -> isnan v = false.
Definition tidy (u : ujoint) (j : joint) : Prop :=
  (forall x, u_limits u = Some x -> isnan (u_lower x) = false /\ isnan (u_upper x) = false /\ isnan (u_vel x) = false /\ isnan (u_eff x) = false) /\
  (forall i, In i (j_cmds j) -> tidy_text (i_min i) /\ tidy_text (i_max i)).
