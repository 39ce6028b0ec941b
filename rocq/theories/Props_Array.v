(** Props_Array.v -- C73: arrays in parameters. *)
From Coq Require Import List Bool Ascii String ZArith Lia.
From Verif Require Import LexModel LexSpec ArrayModel ArraySpec ArrayProofs.
Import ListNotations.
Open Scope list_scope.

(** An array of strings is accepted exactly when it is a flat array, and the result is its values, in their order. *)
Theorem c73_strings : forall s ts, parse_string_array s = Ok ts <-> flat_array ts s.
Proof. exact main_strings. Qed.
Print Assumptions c73_strings.

(** An array of booleans: every value must be "true" or "false", in any capitalisation. *)
Theorem c73_booleans : forall s bs, parse_bool_array s = Ok bs <->
  exists ts, flat_array ts s /\ Forall2 (fun t (b : bool) => case_variant t (if b then "true" else "false")) ts bs.
Proof. exact main_bools. Qed.
Print Assumptions c73_booleans.

(** An array of numbers, whatever the conversion of one number: every value must convert. *)
Theorem c73_numbers : forall V (number : list ascii -> option V) s vs, parse_number_array number s = Ok vs <->
  exists ts, flat_array ts s /\ Forall2 (fun t v => number t = Some v) ts vs.
Proof. exact @main_numbers. Qed.
Print Assumptions c73_numbers.

(** Everything else is refused with std::invalid_argument; so is an array of numbers one of which does not convert. *)
Theorem c73_refused : forall s, (forall ts, ~ flat_array ts s) ->
  parse_string_array s = InvalidArgument /\ parse_bool_array s = InvalidArgument /\ forall V (number : list ascii -> option V), parse_number_array number s = InvalidArgument.
Proof. intros s N. exact (conj (main_invalid _ s N) (conj (main_invalid _ s N) (fun V number => main_invalid _ s N))). Qed.
Print Assumptions c73_refused.
Theorem c73_never_out_of_range : forall V (number : list ascii -> option V) s, parse_number_array number s <> OutOfRange.
Proof. exact @number_never_range. Qed.
Print Assumptions c73_never_out_of_range.

(** A text is the array of at most one list of values. *)
Theorem c73_unambiguous : forall ts ts' s, flat_array ts s -> flat_array ts' s -> ts = ts'.
Proof. exact array_unique. Qed.
Print Assumptions c73_unambiguous.

Local Notation str := list_ascii_of_string.
Example three : parse_string_array (str "[ a ,b,  c3 ]") = Ok [str "a"; str "b"; str "c3"]. Proof. vm_compute. reflexivity. Qed.
Example none : parse_string_array (str "[  ]") = Ok []. Proof. vm_compute. reflexivity. Qed.
Example nested : parse_string_array (str "[a,[b]]") = InvalidArgument. Proof. vm_compute. reflexivity. Qed.
Example gap : parse_string_array (str "[a,,b]") = InvalidArgument /\ parse_string_array (str "[a b]") = InvalidArgument /\ parse_string_array (str "[a,]") = InvalidArgument /\
  parse_string_array (str "a,b") = InvalidArgument /\ parse_string_array (str " [a]") = InvalidArgument.
Proof. repeat split; vm_compute; reflexivity. Qed.
Example bools : parse_bool_array (str "[TRUE, false]") = Ok [true; false] /\ parse_bool_array (str "[1]") = InvalidArgument. Proof. split; vm_compute; reflexivity. Qed.
(** the hypothesis of [c73_refused] is met *)
Example not_an_array : forall ts, ~ flat_array ts (str "[a,,b]").
Proof. intros ts H. apply main_strings in H. vm_compute in H. discriminate. Qed.
