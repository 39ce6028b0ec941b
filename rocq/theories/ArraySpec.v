(** ArraySpec.v -- what a flat array is: an opening bracket, values separated by commas with white space around each as you like, a closing bracket. *)
From Coq Require Import List Ascii.
From Verif Require Import LexSpec.
Import ListNotations.
(** one value: not empty, without white space, commas or brackets *)
Definition value (t : list ascii) : Prop := t <> [] /\ Forall (fun c => ~ space c /\ c <> ","%char /\ c <> "["%char /\ c <> "]"%char) t.
Inductive values : list (list ascii) -> list ascii -> Prop :=
| last_value a t b : Forall space a -> value t -> Forall space b -> values [t] (a ++ t ++ b)
| more_values a t b ts s : Forall space a -> value t -> Forall space b -> values ts s -> values (t :: ts) (a ++ t ++ b ++ ","%char :: s).
Inductive flat_array : list (list ascii) -> list ascii -> Prop :=
| no_values a : Forall space a -> flat_array [] ("["%char :: a ++ ["]"%char])
| some_values ts s : values ts s -> flat_array ts ("["%char :: s ++ ["]"%char]).
