(** RmSys.v -- the resource manager as a transition system: every public operation the controller
    manager uses, in any order, from a start with any set of loaded components.  [sy_loans] is the
    multiset of live LoanedCommandInterface objects (loaned_command_interface.hpp:34-70: the loan's
    destructor calls the release function exactly once). *)
From Verif Require Import Base Events HwModel RmModel.

Inductive rop :=
| OSet (h : name) (target : lc)
| OShutdown
| ORead
| OWrite
| OClaim (k : name)
| ORelease (k : name)
| OImportRefs (c : name) (ks : list name)
| ORemoveRefs (c : name)
| ORefsAvailable (c : name)
| ORefsUnavailable (c : name)
| OImportExps (c : name) (ks : list name)
| ORemoveExps (c : name)
| OExpsAvailable (c : name)
| OExpsUnavailable (c : name)
| OCache (c : name) (ks : list name)
| OPrepare (start stop : list name)
| OPerform (start stop : list name).

Record sys := { sy_rm : rm; sy_loans : list name }.
Definition mk (r : rm) (l : list name) : sys := {| sy_rm := r; sy_loans := l |}.

(** What the caller gets back. *)
Inductive rout :=
| OutBool (b : bool)          (* return_type::OK / true, or "did not throw" *)
| OutStatus (s : rwstatus)
| OutNone.

Definition opt_rm (r : rm) (o : option rm) : rm * rout :=
  match o with Some r' => (r', OutBool true) | None => (r, OutBool false) end.

Definition rstep (e : env) (allow : bool) (s : sys) (o : rop) : sys * rout :=
  let r := with_trace (sy_rm s) (EvOp :: rm_trace (sy_rm s)) in
  let l := sy_loans s in
  let keep '((r', out) : rm * rout) := (mk r' l, out) in
  let bool_ '((r', b) : rm * bool) := (mk r' l, OutBool b) in
  match o with
  | OSet h target => bool_ (set_component_state e r h target)
  | OShutdown => bool_ (shutdown_components e r)
  | ORead => let '(r', st) := rm_read e r in (mk r' l, OutStatus st)
  | OWrite => let '(r', st) := rm_write e r in (mk r' l, OutStatus st)
  | OClaim k => let '(r', ok) := claim_cmd r k in
                (mk r' (if ok then k :: l else l), OutBool ok)
  | ORelease k => (* only a live loan can be released *)
      if mem k l then (mk (release_cmd r k) (remove1 k l), OutNone) else (mk r l, OutNone)
  | OImportRefs c ks => bool_ (import_refs r c ks)
  | ORemoveRefs c => (mk (remove_refs r c) l, OutNone)
  | ORefsAvailable c => keep (opt_rm r (make_refs_available r c))
  | ORefsUnavailable c => keep (opt_rm r (make_refs_unavailable r c))
  | OImportExps c ks => (mk (import_exps r c ks) l, OutNone)
  | ORemoveExps c => (mk (remove_exps r c) l, OutNone)
  | OExpsAvailable c => keep (opt_rm r (make_exps_available r c))
  | OExpsUnavailable c => keep (opt_rm r (make_exps_unavailable r c))
  | OCache c ks => (mk (cache_controller r c ks) l, OutNone)
  | OPrepare s p => bool_ (rm_prepare e allow r s p)
  | OPerform s p => bool_ (rm_perform e allow r s p)
  end.

Definition rrun (e : env) (allow : bool) (s : sys) (ops : list rop) : sys :=
  fold_left (fun s o => fst (rstep e allow s o)) ops s.

Definition sys_start (hs : list hwc) : sys := mk (rm_start hs) [].

(** The loaded components are well formed: component names are unique, no interface is exported
    twice.  RM: hardware_info_map_ is keyed by name; add_state_interface / insert_command_interface
    refuse existing keys; component_parser rejects duplicate component names. *)
Record wf_hw (hs : list hwc) : Prop := {
  wf_names : NoDup (map h_name hs);
  wf_cmd : NoDup (flat_map h_cmd hs);
  wf_state : NoDup (flat_map h_state hs)
}.
