(** ChainModel.v -- chain topology: full chain groups and the execution order.
    Models /repo/controller_manager/src/controller_manager.cpp (cited CM):
    get_full_chain_spec 444-472, build_controller_full_chain_map_cache 474-487,
    update_list_with_controller_chain 4817-4889 and the ordering loop of configure_controller
    1766-1777, controller_chain_spec_cleanup 150-178.

    The recursive C++ functions are modelled with a fuel argument; [None] = fuel exhausted.  The
    theorems show that the fuel used by the callers always suffices. *)
From Verif Require Import Base.

(** ControllerChainSpec (controller_manager.hpp): following and preceding controllers. *)
Record links := { following : list name; preceding : list name }.
Definition no_links : links := {| following := []; preceding := [] |}.

(** controller_chain_spec_; operator[] on a missing key yields empty lists. *)
Definition spec := alist links.
Definition get_links (s : spec) (n : name) : links :=
  match aget s n with Some x => x | None => no_links end.

(** Loop "for c in l: if (!has_item(acc, c)) recurse" of CM 457-471; [rec] is the recursive call. *)
Fixpoint chain_loop (rec : name -> list name -> option (list name)) (l : list name)
    (acc : list name) : option (list name) :=
  match l with
  | [] => Some acc
  | c :: l' =>
      if mem c acc then chain_loop rec l' acc
      else match rec c acc with Some acc' => chain_loop rec l' acc' | None => None end
  end.

(** get_full_chain_spec, CM 444-472.  A name without an entry is not added (CM 449-455). *)
Fixpoint full_chain (fuel : nat) (s : spec) (n : name) (acc : list name) : option (list name) :=
  match fuel with
  | 0 => None
  | S f =>
    match aget s n with
    | None => Some acc
    | Some x =>
        match chain_loop (full_chain f s) (following x) (add_item acc n) with
        | None => None
        | Some acc1 => chain_loop (full_chain f s) (preceding x) acc1
        end
    end
  end.

(** All names occurring in the map. *)
Definition spec_names (s : spec) : list name :=
  flat_map (fun '(k, x) => k :: following x ++ preceding x) s.
Definition spec_fuel (s : spec) : nat := S (length (spec_names s)).

(** build_controller_full_chain_map_cache, CM 474-487, for one key. *)
Definition chain_group (s : spec) (n : name) : list name :=
  match full_chain (spec_fuel s) s n [n] with Some l => l | None => [] end.

(** std::find + std::distance: index of the first occurrence, length if absent (end()). *)
Fixpoint pos (x : name) (l : list name) : nat :=
  match l with
  | [] => 0
  | y :: l' => if String.eqb x y then 0 else S (pos x l')
  end.

(** vector::insert before position i. *)
Definition insert_at (i : nat) (x : name) (l : list name) : list name :=
  firstn i l ++ x :: skipn i l.

(** CM 4829-4854: the insertion position. *)
Definition min_following (l : list name) (it : nat) (fs : list name) : nat :=
  fold_left (fun it c => if mem c l && Nat.ltb (pos c l) it then pos c l else it) fs it.
Definition max_preceding (l : list name) (it : nat) (ps : list name) : nat :=
  fold_left (fun it c => if mem c l && Nat.ltb it (pos c l) then pos c l else it) ps it.

(** Recursion loops of CM 4870-4888: the position of [n] is looked up before each call. *)
Fixpoint order_loop (rec : name -> nat -> bool -> list name -> option (list name)) (n : name)
    (append : bool) (cs : list name) (l : list name) : option (list name) :=
  match cs with
  | [] => Some l
  | c :: cs' =>
      match rec c (pos n l) append l with
      | Some l' => order_loop rec n append cs' l'
      | None => None
      end
  end.

(** update_list_with_controller_chain, CM 4817-4889. *)
Fixpoint update_list (fuel : nat) (s : spec) (n : name) (it : nat) (append : bool)
    (l : list name) : option (list name) :=
  if mem n l then Some l
  else
  match fuel with
  | 0 => None
  | S f =>
      let x := get_links s n in
      let it1 := min_following l it (following x) in
      let it2 := max_preceding l it1 (preceding x) in
      let l1 := insert_at (if append then S it2 else it2) n l in
      match order_loop (update_list f s) n true (following x) l1 with
      | None => None
      | Some l2 => order_loop (update_list f s) n false (preceding x) l2
      end
  end.

(** Ordering loop of configure_controller, CM 1766-1777; [keys] is the iteration order of the
    unordered_map. *)
Fixpoint order_all (s : spec) (keys : list name) (l : list name) : option (list name) :=
  match keys with
  | [] => Some l
  | k :: ks =>
      match update_list (spec_fuel s) s k (length l) false l with
      | Some l' => order_all s ks l'
      | None => None
      end
  end.

(** controller_chain_spec_cleanup, CM 150-178 (remove_item: first occurrence). *)
Definition spec_cleanup (s : spec) (n : name) : spec :=
  let x := get_links s n in
  let s1 := fold_left (fun s f => let y := get_links s f in
              aset s f {| following := following y; preceding := remove1 n (preceding y) |})
              (following x) s in
  let s2 := fold_left (fun s p => let y := get_links s p in
              aset s p {| following := remove1 n (following y); preceding := preceding y |})
              (preceding x) s1 in
  adel s2 n.
