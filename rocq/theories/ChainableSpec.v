(** ChainableSpec.v -- what a chainable controller's base class should do. *)
From Verif Require Import Base Events ChainableModel.
Open Scope string_scope. Open Scope nat_scope. Open Scope list_scope.

(** Interfaces controller [n] may export: each prefix begins with the controller's name, all full
    names are different. *)
Definition exportable (n : name) (hs : list handle) : Prop :=
  (forall h, In h hs -> exists rest, hd_prefix h = (n ++ rest)%string) /\ NoDup (map hd_name hs).

(** The mode after a history: the last request the controller agreed to while not active. *)
Fixpoint agreed (l : lc) (m : bool) (os : list chop) : bool :=
  match os with
  | [] => m
  | HState l' :: r => agreed l' m r
  | HSetMode b true :: r => agreed l (match l with Active => m | _ => b end) r
  | _ :: r => agreed l m r
  end.

(** "pid/..." : the interface really lives under the controller's own name. *)
Definition own_namespace (n : name) (h : handle) : Prop :=
  hd_prefix h = n \/ exists rest, hd_prefix h = (n ++ "/" ++ rest)%string.
