(** LexSpec.v -- what a decimal integer is. *)
From Coq Require Import ZArith List Ascii String.
Import ListNotations.
Open Scope Z_scope.
(** the ten digits *)
Definition digits10 : list ascii := list_ascii_of_string "0123456789".
Definition digit (c : ascii) (d : Z) : Prop := 0 <= d /\ nth_error digits10 (Z.to_nat d) = Some c.
(** a non-empty row of digits denotes a number *)
Inductive numeral : list ascii -> Z -> Prop :=
| num_one c d : digit c d -> numeral [c] d
| num_more s v c d : numeral s v -> digit c d -> numeral (s ++ [c]) (10 * v + d).
(** white space: blank, tab, line feed, vertical tab, form feed, carriage return *)
Definition space (c : ascii) : Prop := In c (map ascii_of_nat [32; 9; 10; 11; 12; 13])%nat.
(** optional white space, an optional sign, digits *)
Inductive integer : list ascii -> Z -> Prop :=
| int_plain w s v : Forall space w -> numeral s v -> integer (w ++ s) v
| int_plus w s v : Forall space w -> numeral s v -> integer (w ++ "+"%char :: s) v
| int_minus w s v : Forall space w -> numeral s v -> integer (w ++ "-"%char :: s) (- v).
(** the same letters, some of them possibly capitals *)
Definition capital (c : ascii) : ascii := ascii_of_nat (nat_of_ascii c - 32).
Definition case_variant (s : list ascii) (word : string) : Prop :=
  Forall2 (fun c d => c = d \/ c = capital d) s (list_ascii_of_string word).
