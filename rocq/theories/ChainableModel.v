(** ChainableModel.v -- the base class of chainable controllers.
    Models /repo/controller_interface/src/chainable_controller_interface.cpp (CCI below): update
    31-50, export_state_interfaces 52-158, export_reference_interfaces 160-291, set_chained_mode
    293-318, the default on_* methods 322-374.

    Simplifications: a handle is its (prefix, interface name); the user's overrides are oracles given
    with each call; log output left out; an exception is the result [None]. *)
From Verif Require Import Base Events.
Open Scope string_scope. Open Scope nat_scope. Open Scope list_scope.

Record handle := { hd_prefix : name; hd_itf : name }.
(** Handle's name, handle.hpp (constructor): prefix + "/" + interface name. *)
Definition hd_name (h : handle) : name := (hd_prefix h ++ "/" ++ hd_itf h)%string.

Record chainable := {
  c_name : name;
  c_state : lc;                    (* life-cycle state *)
  c_chained : bool;                (* in_chained_mode_ *)
  c_size : nat;                    (* reference_interfaces_.size() *)
  c_refs : list name;              (* exported_reference_interface_names_ *)
  c_ordered : list handle;         (* ordered_exported_reference_interfaces_ *)
  c_map : list name;               (* keys of exported_reference_interfaces_ *)
  c_exps : list name;              (* exported_state_interface_names_ *)
  c_sordered : list handle;        (* ordered_exported_state_interfaces_ *)
  c_smap : list name               (* keys of exported_state_interfaces_ *)
}.

(** A controller just constructed (chainable_controller_interface.hpp: in_chained_mode_ = false). *)
Definition constructed (n : name) : chainable :=
  {| c_name := n; c_state := Unconfigured; c_chained := false; c_size := 0; c_refs := [];
     c_ordered := []; c_map := []; c_exps := []; c_sordered := []; c_smap := [] |}.

Definition set_state (c : chainable) (l : lc) : chainable :=
  {| c_name := c_name c; c_state := l; c_chained := c_chained c; c_size := c_size c;
     c_refs := c_refs c; c_ordered := c_ordered c; c_map := c_map c; c_exps := c_exps c;
     c_sordered := c_sordered c; c_smap := c_smap c |}.
Definition set_mode (c : chainable) (b : bool) : chainable :=
  {| c_name := c_name c; c_state := c_state c; c_chained := b; c_size := c_size c;
     c_refs := c_refs c; c_ordered := c_ordered c; c_map := c_map c; c_exps := c_exps c;
     c_sordered := c_sordered c; c_smap := c_smap c |}.
Definition set_ref (c : chainable) (n : nat) (rs : list name) (od : list handle) (mp : list name)
  : chainable :=
  {| c_name := c_name c; c_state := c_state c; c_chained := c_chained c; c_size := n;
     c_refs := rs; c_ordered := od; c_map := mp; c_exps := c_exps c;
     c_sordered := c_sordered c; c_smap := c_smap c |}.
Definition set_exp (c : chainable) (rs : list name) (od : list handle) (mp : list name) : chainable :=
  {| c_name := c_name c; c_state := c_state c; c_chained := c_chained c; c_size := c_size c;
     c_refs := c_refs c; c_ordered := c_ordered c; c_map := c_map c; c_exps := rs;
     c_sordered := od; c_smap := mp |}.

(** Calls of the user's methods, oldest first. *)
Inductive ucall := URefs | UWrite | UMode (b : bool).

(** update, CCI 31-50: [r1] is what update_reference_from_subscribers returns, [r2] what
    update_and_write_commands returns. *)
Definition ch_update (c : chainable) (r1 r2 : rtype) : rtype * list ucall :=
  if c_chained c then (r2, [UWrite])
  else match r1 with
       | ROk => (r2, [URefs; UWrite])
       | _ => (r1, [URefs])
       end.

(** set_chained_mode, CCI 293-318: [ans] is what on_set_chained_mode answers. *)
Definition ch_set_mode (c : chainable) (b ans : bool) : chainable * bool * list ucall :=
  match c_state c with
  | Active => (c, false, [])
  | _ => (if ans then set_mode c b else c, ans, [UMode b])
  end.

(** std::string::find(name) == 0, CCI 75, 110, 203, 243 *)
Definition begins_with (n p : name) : bool := String.prefix n p.

(** What one of the two loops over exported interfaces leaves behind (CCI 73-105, 108-143 and
    201-238, 241-276): names, handles, map keys; [EDup] and [EPrefix] are the two throws. *)
Inductive eres := EDone (rs : list name) (od : list handle) (mp : list name)
                | EPrefix (rs : list name) (od : list handle) (mp : list name)
                | EDup (od : list handle) (mp : list name).
Fixpoint export_loop (n : name) (hs : list handle) (rs : list name) (od : list handle)
    (mp : list name) : eres :=
  match hs with
  | [] => EDone rs od mp
  | h :: hs' =>
      if negb (begins_with n (hd_prefix h)) then EPrefix rs od mp
      else if mem (hd_name h) mp then EDup od mp
      else export_loop n hs' (add_item rs (hd_name h)) (od ++ [h]) (mp ++ [hd_name h])
  end.

(** export_reference_interfaces, CCI 160-291.  The user's on_export_reference_interfaces leaves
    reference_interfaces_ with [sz] elements and returns [old]; on_export_reference_interfaces_list
    returns [new].  The two loops are one loop over [old ++ new].  The final size test (278-288)
    cannot fail after the loops and is kept. *)
Definition ch_export_refs (c : chainable) (sz : nat) (old new : list handle)
  : chainable * option (list handle) :=
  if negb (Nat.eqb sz (length old)) then (set_ref c sz [] [] [], None)
  else match export_loop (c_name c) (old ++ new) [] [] [] with
       | EDone rs od mp =>
           (set_ref c sz rs od mp,
            if Nat.eqb (length mp) (length old + length new) then Some od else None)
       | EPrefix rs od mp => (set_ref c sz rs od mp, None)
       | EDup od mp => (set_ref c 0 [] od mp, None)      (* 228-229: the map is not cleared *)
       end.

(** export_state_interfaces, CCI 52-158; a duplicate clears the map here (98-100, 133-135). *)
Definition ch_export_states (c : chainable) (old new : list handle)
  : chainable * option (list handle) :=
  match export_loop (c_name c) (old ++ new) [] [] [] with
  | EDone rs od mp =>
      (set_exp c rs od mp,
       if Nat.eqb (length mp) (length old + length new) then Some od else None)
  | EPrefix rs od mp => (set_exp c rs od mp, None)
  | EDup od mp => (set_exp c [] od [], None)
  end.

(** The default on_export_reference_interfaces (CCI 351-362) run after the reset at 166-168: one
    handle per name in exported_reference_interface_names_, which has just been cleared. *)
Definition default_refs (c : chainable) (names_after_reset : list name) : nat * list handle :=
  (length names_after_reset,
   map (fun i => {| hd_prefix := c_name c; hd_itf := i |}) names_after_reset).

(** Histories. *)
Inductive chop :=
| HState (l : lc)                                  (* a life-cycle transition happened *)
| HUpdate (r1 r2 : rtype)
| HSetMode (b ans : bool)
| HExportRefs (sz : nat) (old new : list handle)
| HExportStates (old new : list handle).

Definition chstep (c : chainable) (o : chop) : chainable :=
  match o with
  | HState l => set_state c l
  | HUpdate _ _ => c
  | HSetMode b ans => fst (fst (ch_set_mode c b ans))
  | HExportRefs sz old new => fst (ch_export_refs c sz old new)
  | HExportStates old new => fst (ch_export_states c old new)
  end.
Definition chrun (c : chainable) (os : list chop) : chainable := fold_left chstep os c.
