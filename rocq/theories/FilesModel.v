(** FilesModel.v -- executable model of how the spawner reads parameter files: get_params_files_with_controller_parameters and
    get_parameter_from_param_files, controller_manager/controller_manager/controller_manager_services.py 340-444.
    Simplified: a file is the tree yaml.safe_load makes of it, null, a (non-empty, non-mapping) scalar or a mapping with
    text keys (a list is a scalar here); looking a key up in something else than a mapping raises (in Python [in] on a text is a
    substring test); the messages are left out. [None]: an exception (unreadable file, null document, invalid section). *)
From Coq Require Import String List Bool.
Import ListNotations.
Open Scope string_scope. Open Scope list_scope.

Inductive yaml := YNull | YScalar (s : string) | YMap (l : list (string * yaml)).
Definition entry (l : list (string * yaml)) (k : string) : option yaml := option_map snd (find (fun x => String.eqb (fst x) k) l).
(** [k in y] and, if so, [y[k]]; outer [None]: raises *)
Definition look (y : yaml) (k : string) : option (option yaml) := match y with YMap l => Some (entry l k) | _ => None end.
Definition truthy (y : yaml) : bool := match y with YNull | YMap [] => false | _ => true end.

Definition wildcard := "/**".
Definition ros_params := "ros__parameters".
(** 347-349, 379-381 *)
Definition in_ns (ns n : string) : string := if String.eqb ns "/" then ("/" ++ n)%string else (ns ++ "/" ++ n)%string.
(** 354-359, 387-392 *)
Definition keys (ns n : string) : list string := [n; in_ns ns n; ("/**/" ++ n)%string; ("/**" ++ in_ns ns n)%string].

(** what one turn of the loop over the keys finds: nothing, the key without its name space, a section *)
Inductive found := Nothing | Unscoped | Section (y : yaml).
Definition find_section (ns n : string) (doc : yaml) (k : string) : option found :=
  match look doc k with
  | None => None
  | Some (Some s) => if String.eqb k n && negb (String.eqb ns "/") then Some Unscoped else Some (Section s)
  | Some None =>
      match look doc wildcard with
      | None => None
      | Some None => Some Nothing
      | Some (Some w) =>
          match look w k with
          | None => None
          | Some (Some s) => Some (Section s)
          | Some None => match look w ros_params with None => None | Some (Some _) => Some (Section w) | Some None => Some Nothing end
          end
      end
  end.

(** 360-375: does the file go into the list *)
Fixpoint uses (ns n : string) (doc : yaml) (ks : list string) : option bool :=
  match ks with
  | [] => Some false
  | k :: ks' => match find_section ns n doc k with
                | None => None | Some Unscoped => Some false | Some (Section _) => Some true | Some Nothing => uses ns n doc ks' end
  end.
(** get_params_files_with_controller_parameters, 340-376 *)
Fixpoint select (read : string -> option yaml) (ns n : string) (files got : list string) : option (list string) :=
  match files with
  | [] => Some got
  | f :: fs =>
      if existsb (String.eqb f) got then select read ns n fs got
      else match read f with
           | None => None
           | Some doc => match uses ns n doc (keys ns n) with
                         | None => None | Some true => select read ns n fs (got ++ [f]) | Some false => select read ns n fs got end
           end
  end.

(** the parameter in a section, 408-423 *)
Definition param_of (s : yaml) (p : string) : option (option yaml) :=
  if truthy s then match look s ros_params with Some (Some r) => look r p | _ => None end else Some None.
(** 393-423; a section that was found stays the candidate until the next one *)
Fixpoint scan (ns n : string) (doc : yaml) (p : string) (ks : list string) (cand : yaml) : option yaml :=
  match ks with
  | [] => Some cand
  | k :: ks' =>
      match find_section ns n doc k with
      | None => None
      | Some Unscoped => Some cand
      | Some x =>
          let cand' := match x with Section s => s | _ => cand end in
          match param_of cand' p with None => None | Some (Some _) => Some cand' | Some None => scan ns n doc p ks' cand' end
      end
  end.
(** get_parameter_from_param_files, 379-428: the value, or nothing *)
Fixpoint get_param (read : string -> option yaml) (ns n p : string) (files : list string) : option (option yaml) :=
  match files with
  | [] => Some None
  | f :: fs =>
      match read f with
      | None => None
      | Some doc =>
          match scan ns n doc p (keys ns n) YNull with
          | None => None
          | Some cand => match param_of cand p with None => None | Some (Some v) => Some (Some v) | Some None => get_param read ns n p fs end
          end
      end
  end.
