(** LexModel.v -- lexical casts of parameters (hardware_interface/lexical_casts).
    Strings are byte strings; the C library functions are those of the "C" locale, long has 64 bits. *)
From Coq Require Import ZArith Bool List String Ascii.
Import ListNotations.
Open Scope Z_scope.

(** isspace: space, \t \n \v \f \r *)
Definition is_space (c : ascii) : bool := let n := N_of_ascii c in (n =? 32)%N || ((9 <=? n)%N && (n <=? 13)%N).
Definition digit_of (c : ascii) : option Z :=
  let n := Z.of_N (N_of_ascii c) in if (48 <=? n) && (n <=? 57) then Some (n - 48) else None.
Fixpoint skip_spaces (s : list ascii) : list ascii :=
  match s with c :: r => if is_space c then skip_spaces r else s | [] => [] end.
(** the longest run of digits: its value and what follows it *)
Fixpoint take_digits (acc : Z) (s : list ascii) : Z * list ascii :=
  match s with
  | c :: r => match digit_of c with Some d => take_digits (10 * acc + d) r | None => (acc, s) end
  | [] => (acc, []) end.
(** strtol/strtoul, base 10 (C11 7.22.1.4): None = no conversion; else sign, magnitude, rest of the string *)
Definition strto (s : list ascii) : option (bool * Z * list ascii) :=
  let s := skip_spaces s in
  let '(neg, s) := match s with
    | "-"%char :: r => (true, r) | "+"%char :: r => (false, r) | _ => (false, s) end in
  match s with
  | c :: _ => match digit_of c with Some _ => let '(v, r) := take_digits 0 s in Some (neg, v, r) | None => None end
  | [] => None end.

Inductive res (T : Type) := Ok (v : T) | InvalidArgument | OutOfRange.
Arguments Ok {T}. Arguments InvalidArgument {T}. Arguments OutOfRange {T}.

Definition long_min := - 2 ^ 63. Definition long_max := 2 ^ 63 - 1. Definition ulong_max := 2 ^ 64 - 1.
(** std::stol(s, &pos): the value and whether pos = s.length() *)
Definition std_stol (s : list ascii) : res (Z * bool) :=
  match strto s with
  | None => InvalidArgument
  | Some (neg, v, r) => let x := if (neg : bool) then - v else v in
      if (x <? long_min) || (long_max <? x) then OutOfRange else Ok (x, match r with [] => true | _ => false end) end.
(** std::stoul(s, &pos): a minus sign negates modulo 2^64 *)
Definition std_stoul (s : list ascii) : res (Z * bool) :=
  match strto s with
  | None => InvalidArgument
  | Some (neg, v, r) =>
      if ulong_max <? v then OutOfRange else
      Ok ((if (neg : bool) then (- v) mod 2 ^ 64 else v), match r with [] => true | _ => false end) end.

(** stoi_generic<T>, lexical_casts.hpp:46-62; stoi8/16/32 :65-67.  T has [bits] bits. *)
Definition stoi (bits : Z) (s : list ascii) : res Z :=
  match std_stol s with
  | Ok (v, true) => if (v <? - 2 ^ (bits - 1)) || (2 ^ (bits - 1) - 1 <? v) then OutOfRange else Ok v
  | Ok (_, false) => InvalidArgument
  | InvalidArgument => InvalidArgument | OutOfRange => OutOfRange end.
(** stoui_generic<T>, lexical_casts.hpp:73-91; stoui8/16/32 :94-96 *)
Definition stoui (bits : Z) (s : list ascii) : res Z :=
  match std_stoul s with
  | Ok (v, true) => if 2 ^ bits - 1 <? v then OutOfRange else Ok v
  | Ok (_, false) => InvalidArgument
  | InvalidArgument => InvalidArgument | OutOfRange => OutOfRange end.

(** std::tolower *)
Definition tolower (c : ascii) : ascii :=
  let n := N_of_ascii c in if ((65 <=? n)%N && (n <=? 90)%N) then ascii_of_N (n + 32) else c.
(** to_lower_case, lexical_casts.cpp:120-128; parse_bool :130-150 *)
Definition to_lower_case (s : list ascii) : list ascii := map tolower s.
Definition str_eqb (a b : list ascii) : bool := if list_eq_dec ascii_dec a b then true else false.
Definition parse_bool (s : list ascii) : res bool :=
  let t := to_lower_case s in
  if str_eqb t (list_ascii_of_string "true") then Ok true else
  if str_eqb t (list_ascii_of_string "false") then Ok false else InvalidArgument.
