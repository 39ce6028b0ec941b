(** TransSpec.v -- words used in the statements about transmissions. *)
From Coq Require Import Reals List Bool String.
From Verif Require Import TransModel.
Import ListNotations.

(** exact arithmetic *)
Definition Reals : arith := {| num := R; nadd := Rplus; nsub := Rminus; nmul := Rmult; ndiv := Rdiv; ntwo := 2%R;
  is_zero := fun x => if Req_EM_T x 0 then true else false |}.

(** the storage of all non-null handles *)
Definition storage (hs : list handle) : list nat := flat_map (fun h => match h_ptr h with Some p => [p] | None => [] end) hs.
(** no two handles share their storage *)
Definition separate (jh ah : list handle) : Prop := NoDup (storage jh ++ storage ah).
(** among the handles, exactly one is for interface [k] of [name], and its value lives at [p] *)
Definition only (hs : list handle) (name : string) (k : itf) (p : nat) : Prop :=
  filter (fun h => String.eqb (h_prefix h) name && String.eqb (h_itf h) (itf_name k)) hs =
  [{| h_prefix := name; h_itf := itf_name k; h_ptr := Some p |}].
(** exactly one for each of two joints (actuators) *)
Definition pair_of (hs : list handle) (n0 n1 : string) (k : itf) (p : nat * nat) : Prop :=
  only hs n0 k (fst p) /\ only hs n1 k (snd p).

(** the laws of the two-joint transmissions as documented in differential_transmission.hpp:40-66 and
    four_bar_linkage_transmission.hpp:47-75 (with the evident misprints of the second joint's effort sign
    and position reduction in the former corrected): joint values of an interface from actuator values *)
Definition differential_law (ar0 ar1 jr0 jr1 off0 off1 : R) (k : itf) (a0 a1 : R) : R * R :=
  (match k with
   | Eff | Tor | For => (jr0 * (ar0 * a0 + ar1 * a1), jr1 * (ar0 * a0 - ar1 * a1))
   | Vel => ((a0 / ar0 + a1 / ar1) / (2 * jr0), (a0 / ar0 - a1 / ar1) / (2 * jr1))
   | Pos | Abs => ((a0 / ar0 + a1 / ar1) / (2 * jr0) + off0, (a0 / ar0 - a1 / ar1) / (2 * jr1) + off1) end)%R.
Definition four_bar_law (ar0 ar1 jr0 jr1 off0 off1 : R) (k : itf) (a0 a1 : R) : R * R :=
  (match k with
   | Vel => (a0 / (jr0 * ar0), (a1 / ar1 - a0 / (jr0 * ar0)) / jr1)
   | Pos | Abs => (a0 / (jr0 * ar0) + off0, (a1 / ar1 - a0 / (jr0 * ar0)) / jr1 + off1)
   | _ => (jr0 * ar0 * a0 + ar1 * a1, jr1 * ar1 * a1) end)%R.
Definition law (k : kind) := match k with KFourBar => four_bar_law | _ => differential_law end.
(** interfaces a transmission of that kind handles *)
Definition handled (k : kind) (i : itf) : Prop := match k with KFourBar => i = Pos \/ i = Vel \/ i = Eff | _ => True end.
Definition effort_like (i : itf) : Prop := i = Eff \/ i = Tor \/ i = For.
