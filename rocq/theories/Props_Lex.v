(** Props_Lex.v -- C40, C41: parsing of integer and boolean parameters. *)
From Coq Require Import ZArith List Ascii String.
From Verif Require Import LexModel LexSpec LexProofs.
Import ListNotations.
Open Scope Z_scope.
Definition str (s : string) := list_ascii_of_string s.

(** C40: [integer s v]: s is optional white space, an optional sign and decimal digits denoting v. *)
Theorem c40_signed : forall bits s v, 1 <= bits <= 64 ->
  stoi bits s = Ok v <-> integer s v /\ - 2 ^ (bits - 1) <= v < 2 ^ (bits - 1).
Proof. exact main_signed. Qed.
Print Assumptions c40_signed.
(** unsigned: everything representable is accepted with its value; without minus sign nothing else is *)
Theorem c40_unsigned_accepts : forall bits s v, 0 <= bits <= 64 -> integer s v -> 0 <= v < 2 ^ bits -> stoui bits s = Ok v.
Proof. exact main_unsigned_accepts. Qed.
Print Assumptions c40_unsigned_accepts.
Theorem c40_unsigned_partial : forall bits s v, 0 <= bits <= 64 -> ~ In "-"%char s ->
  stoui bits s = Ok v <-> integer s v /\ 0 <= v < 2 ^ bits.
Proof. exact main_unsigned. Qed.
Print Assumptions c40_unsigned_partial.
(** with a minus sign, the only other accepted strings denote a value 2^64 below the result *)
Theorem c40_unsigned_wraps : forall bits s v, 0 <= bits <= 32 -> stoui bits s = Ok v ->
  0 <= v < 2 ^ bits /\ (integer s v \/ integer s (v - 2 ^ 64)).
Proof. exact main_unsigned_minus. Qed.
Print Assumptions c40_unsigned_wraps.
(** and such strings exist: the full statement is false for the unsigned types *)
Theorem c40_refuted : exists s v, stoui 8 s = Ok v /\ integer s (v - 2 ^ 64) /\ v = 1.
Proof.
  exists (str "-18446744073709551615"), 1. split; [reflexivity|]. split; [|reflexivity].
  apply strto_iff. exists true, 18446744073709551615. split; reflexivity.
Qed.
Print Assumptions c40_refuted.
Example c40_example :
  stoi 8 (str "  -128") = Ok (-128) /\ stoi 8 (str "128") = OutOfRange /\ stoi 32 (str "12a") = InvalidArgument /\
  stoi 16 (str "") = InvalidArgument /\ stoi 32 (str "+0012") = Ok 12 /\ stoui 8 (str "255") = Ok 255 /\ stoui 8 (str "256") = OutOfRange /\
  stoui 16 (str "-1") = OutOfRange /\ integer (str " +42") 42 /\ ~ In "-"%char (str "255").
Proof. repeat (split; [vm_compute; reflexivity|]). split; [apply strto_iff; exists false, 42; split; reflexivity|]. vm_compute. intuition discriminate. Qed.

(** C41 *)
Theorem c41_bool : forall s b, parse_bool s = Ok b <-> case_variant s (if b then "true" else "false").
Proof. exact main_bool. Qed.
Print Assumptions c41_bool.
Example c41_example : parse_bool (str "tRuE") = Ok true /\ parse_bool (str "FALSE") = Ok false /\ parse_bool (str "1") = InvalidArgument /\
  parse_bool (str "true ") = InvalidArgument /\ case_variant (str "TRUE") "true".
Proof. repeat (split; [reflexivity|]). unfold case_variant, str. cbn. repeat (constructor; [right; reflexivity|]). constructor. Qed.
