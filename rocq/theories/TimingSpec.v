(** TimingSpec.v -- C27 and C48. *)
From Coq Require Import ZArith Bool List Lia.
From Verif Require Import TimingModel.
Import ListNotations.
Open Scope Z_scope.

(** [x] is the least integer not below [a/b] (b > 0) *)
Definition is_ceiling (x a b : Z) : Prop := a <= x * b < a + b.
(** cycles at exactly the period [T], starting at [t0] *)
Fixpoint regular (t0 T : Z) (n : nat) : list cycle :=
  match n with O => [] | S n => {| c_time_zero := false; c_now := t0 |} :: regular (t0 + T) T n end.
Definition updates (os : list (option given)) : Z := Z.of_nat (List.length (filter (fun o => match o with Some _ => true | None => false end) os)).
(** the times of the cycles in which the controller was updated *)
Fixpoint update_times (cs : list cycle) (os : list (option given)) : list Z :=
  match cs, os with
  | c :: cs, o :: os => match o with Some _ => c_now c :: update_times cs os | None => update_times cs os end
  | _, _ => []
  end.
(** consecutive elements satisfy R *)
Inductive consecutive (R : Z -> Z -> Prop) : list Z -> Prop :=
| cons_nil : consecutive R []
| cons_one x : consecutive R [x]
| cons_more x y l : R x y -> consecutive R (y :: l) -> consecutive R (x :: y :: l).
Definition proper (c : cycle) : Prop := c_time_zero c = false.

(** exact cycles: an update every j cycles, where j is the number of cycles nearest to u/r *)
Definition nearest (u r j : Z) : Prop := 1 <= j /\ 2 * u <= (2 * j + 1) * r /\ (j = 1 \/ (2 * j - 1) * r < 2 * u).
