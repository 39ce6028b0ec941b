(** ParamSpec.v -- vocabulary for C68. *)
From Coq Require Import List Bool String.
From Verif Require Import ParamModel.
From Verif Require LimitsModel.
Import ListNotations.
Open Scope string_scope.
Open Scope list_scope.

(** the limits in use for joint number i *)
Definition at_joint (s : limiter) (i : nat) : lims := nth i (in_use s) unset.
Definition well_formed (s : limiter) : Prop := List.length (in_use s) = List.length (joints s) /\ List.length (buffered s) = List.length (joints s).
(** the limiter has used (enforced with) the limits last announced *)
Definition settled (s : limiter) : Prop := buffered s = in_use s.
(** same limits, field by field *)
Definition same (l l' : lims) : Prop := (forall f, num l f = num l' f) /\ (forall f, flag l f = flag l' f).
Definition same_but_num (g : nf) (l l' : lims) : Prop := (forall f, f <> g -> num l f = num l' f) /\ (forall f, flag l f = flag l' f).
Definition same_but_flag (g : bf) (l l' : lims) : Prop := (forall f, num l f = num l' f) /\ (forall f, f <> g -> flag l f = flag l' f).
(** a parameter of that joint's limits *)
Definition concerns (j : string) (p : param) : Prop :=
  (exists f, fst p = ("joint_limits." ++ j ++ "." ++ nf_name f)%string) \/ (exists f, fst p = ("joint_limits." ++ j ++ "." ++ bf_name f)%string).
(** flag f may be set with these numbers *)
Definition usable (l : lims) (f : bf) : Prop := match f with
  | HasP => LimitsModel.isnan (num l MinP) = false /\ LimitsModel.isnan (num l MaxP) = false /\ LimitsModel.fle (num l MaxP) (num l MinP) = false
  | HasV => LimitsModel.isnan (num l MaxV) = false
  | HasA => LimitsModel.isnan (num l MaxA) = false
  | HasD => LimitsModel.isnan (num l MaxD) = false
  | HasJ => LimitsModel.isnan (num l MaxJ) = false
  | HasE => LimitsModel.isnan (num l MaxE) = false
  | Wrap => flag l HasP = false
  end.
Definition isnan_free (l : lims) (f : bf) : Prop := match f with
  | HasP => LimitsModel.isnan (num l MinP) = false /\ LimitsModel.isnan (num l MaxP) = false
  | Wrap => True
  | _ => usable l f
  end.
(** what the parameter server says, with the documented defaults *)
Definition says_flag (sv : server) (j : string) (f : bf) : bool := match sv ("joint_limits." ++ j ++ "." ++ bf_name f)%string with Some (VBool b) => b | _ => false end.
Definition says_num (sv : server) (j : string) (f : nf) : F := match sv ("joint_limits." ++ j ++ "." ++ nf_name f)%string with Some (VDouble x) => x | _ => LimitsModel.nan end.
(** no limit is on whose number is NaN *)
Definition no_nan (l : lims) : Prop := forall f, flag l f = true -> isnan_free l f.
Definition no_nan_in (ps : list param) : Prop := forall n x, In (n, VDouble x) ps -> LimitsModel.isnan x = false.
(** the limits of joint j are the ones in the parameters *)
Definition as_said (sv : server) (j : string) (l : lims) : Prop :=
  (forall f, f <> Wrap -> flag l f = says_flag sv j f) /\
  flag l Wrap = says_flag sv j Wrap && negb (says_flag sv j HasP) /\
  (says_flag sv j HasP = true -> num l MinP = says_num sv j MinP /\ num l MaxP = says_num sv j MaxP) /\
  (forall f, f <> HasP -> f <> Wrap -> says_flag sv j f = true -> num l (bound_of f) = says_num sv j (bound_of f)).
