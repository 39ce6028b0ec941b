(** ArrayModel.v -- parse_array<T>, hardware_interface/include/hardware_interface/lexical_casts.hpp:114-173, and parse_string_array, lexical_casts.cpp:153-156.
    std::regex_match is language membership: regular expressions are a small syntax and matching is decided by derivatives;
    std::sregex_iterator over the expression "one or more characters of a class" is the list of maximal runs of such characters.
    Simplification: characters are bytes and \s is the "C" locale's isspace. *)
From Coq Require Import List Bool Ascii String ZArith.
From Verif Require Import LexModel.
Import ListNotations.
Open Scope list_scope.

Inductive re := Void | Eps | Cls (f : ascii -> bool) | Cat (a b : re) | Alt (a b : re) | Star (a : re).
Fixpoint nullable (r : re) : bool :=
  match r with Void => false | Eps => true | Cls _ => false | Cat a b => nullable a && nullable b | Alt a b => nullable a || nullable b | Star _ => true end.
Fixpoint deriv (c : ascii) (r : re) : re :=
  match r with
  | Void => Void | Eps => Void | Cls f => if f c then Eps else Void
  | Cat a b => if nullable a then Alt (Cat (deriv c a) b) (deriv c b) else Cat (deriv c a) b
  | Alt a b => Alt (deriv c a) (deriv c b) | Star a => Cat (deriv c a) (Star a) end.
(** std::regex_match(s, r) *)
Fixpoint regex_match (s : list ascii) (r : re) : bool := match s with [] => nullable r | c :: t => regex_match t (deriv c r) end.

Definition plus (r : re) : re := Cat r (Star r).
Definition opt (r : re) : re := Alt Eps r.
Definition chr (c : ascii) : re := Cls (Ascii.eqb c).
Definition sp : re := Star (Cls is_space).
Definition bracket (c : ascii) : bool := Ascii.eqb "[" c || Ascii.eqb "]" c.
Definition nobr : re := Cls (fun c => negb (bracket c)).
Definition tok : re := Cls (fun c => negb (Ascii.eqb "," c || is_space c)).
(** array_regex, :118 *)
Definition array_regex : re :=
  Cat (chr "[") (Cat sp (Cat (opt (Cat (Star nobr) (Cat sp (Star (Cat (chr ",") (Cat sp (Cat (plus nobr) sp))))))) (chr "]"))).
(** empty_or_spaces_regex, :126 *)
Definition empty_or_spaces_regex : re := Cat (chr "[") (Cat sp (chr "]")).
(** comma_separated_regex, :134 *)
Definition comma_separated_regex : re :=
  Cat (chr "[") (Cat sp (Cat (opt (Cat (plus tok) (Star (Cat sp (Cat (chr ",") (Cat sp (plus tok))))))) (Cat sp (chr "]")))).

(** value_regex, :148: a character that is neither white space nor comma nor bracket *)
Definition value_char (c : ascii) : bool := negb (is_space c || Ascii.eqb "," c || bracket c).
(** the maximal runs: [cur] is the run being read, in reverse *)
Fixpoint runs (cur : list ascii) (s : list ascii) : list (list ascii) :=
  match s with
  | [] => match cur with [] => [] | _ => [rev cur] end
  | c :: t => if value_char c then runs (c :: cur) t else match cur with [] => runs [] t | _ => rev cur :: runs [] t end end.

Section Array.
Variable T : Type.
(** what one value is converted with, :152-171 *)
Variable conv : list ascii -> res T.
Fixpoint convert (l : list (list ascii)) : res (list T) :=
  match l with
  | [] => Ok []
  | x :: r => match conv x with
      | Ok v => match convert r with Ok vs => Ok (v :: vs) | InvalidArgument => InvalidArgument | OutOfRange => OutOfRange end
      | InvalidArgument => InvalidArgument | OutOfRange => OutOfRange end end.
Definition parse_array (s : list ascii) : res (list T) :=
  if negb (regex_match s array_regex) then InvalidArgument else
  if regex_match s empty_or_spaces_regex then Ok [] else
  if negb (regex_match s comma_separated_regex) then InvalidArgument else
  if str_eqb s (list_ascii_of_string "[]") then Ok [] else
  convert (runs [] s).
End Array.

(** parse_string_array and parse_array<std::string>: the text itself, :153-156 *)
Definition parse_string_array : list ascii -> res (list (list ascii)) := parse_array _ (fun x => Ok x).
(** parse_array<bool>, :157-160 *)
Definition parse_bool_array : list ascii -> res (list bool) := parse_array _ parse_bool.
(** parse_array of a number type, :161-171: hardware_interface::stod then static_cast; every failure becomes std::invalid_argument.
    [number] stands for the two together (not modelled here). *)
Definition parse_number_array {V} (number : list ascii -> option V) : list ascii -> res (list V) :=
  parse_array _ (fun x => match number x with Some v => Ok v | None => InvalidArgument end).
