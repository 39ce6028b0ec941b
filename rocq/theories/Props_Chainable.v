(** Props_Chainable.v -- C71: the base class of chainable controllers (ChainableModel.v), for every controller, every set of
    exported interfaces and every history of calls. *)
From Verif Require Import Base Events ChainableModel ChainableSpec ChainableProofs.
Open Scope string_scope. Open Scope nat_scope. Open Scope list_scope.

(** in chained mode the controller's own subscribers are never consulted; otherwise they are consulted first, and unless that
    succeeds nothing is computed or written *)
Theorem c71_update : forall c r1 r2,
  (c_chained c = true -> ch_update c r1 r2 = (r2, [UWrite])) /\
  (c_chained c = false -> r1 = ROk -> ch_update c r1 r2 = (r2, [URefs; UWrite])) /\
  (c_chained c = false -> r1 <> ROk -> ch_update c r1 r2 = (r1, [URefs])).
Proof. exact update_calls. Qed.
Print Assumptions c71_update.

(** an active controller's mode cannot be changed, it is not even asked; otherwise the answer is the controller's *)
Theorem c71_set_mode : forall c b ans c' r calls, ch_set_mode c b ans = (c', r, calls) ->
  (r = true <-> c_state c <> Active /\ ans = true) /\
  (calls = if (match c_state c with Active => true | _ => false end) then [] else [UMode b]) /\
  (r = false -> c' = c) /\ (r = true -> c' = set_mode c b).
Proof. exact set_mode_answer. Qed.
Print Assumptions c71_set_mode.

(** after any history the mode is the last one agreed to *)
Theorem c71_mode : forall n os, c_chained (chrun (constructed n) os) = agreed Unconfigured false os.
Proof. exact mode_is. Qed.
Print Assumptions c71_mode.

(** reference interfaces are exported exactly when their prefixes begin with the controller's name, their names are different
    and reference_interfaces_ has one element per interface of the old API; what is exported is what the controller returned,
    in that order; otherwise the export throws *)
Theorem c71_references : forall c sz old new r, snd (ch_export_refs c sz old new) = Some r <->
  sz = length old /\ exportable (c_name c) (old ++ new) /\ r = old ++ new.
Proof. exact refs_exported. Qed.
Print Assumptions c71_references.

Theorem c71_states : forall c old new r, snd (ch_export_states c old new) = Some r <->
  exportable (c_name c) (old ++ new) /\ r = old ++ new.
Proof. exact states_exported. Qed.
Print Assumptions c71_states.

(** the handles the controller keeps for itself are the exported ones, in the same order; nothing else of the controller
    changes *)
Theorem c71_kept : forall c sz rold rnew r sold snew q,
  (snd (ch_export_refs c sz rold rnew) = Some r ->
   let c' := fst (ch_export_refs c sz rold rnew) in
   c_ordered c' = r /\ c_refs c' = map hd_name r /\ c_map c' = map hd_name r /\ c_size c' = length rold /\
   c_exps c' = c_exps c /\ c_sordered c' = c_sordered c /\
   c_chained c' = c_chained c /\ c_state c' = c_state c /\ c_name c' = c_name c) /\
  (snd (ch_export_states c sold snew) = Some q ->
   let c' := fst (ch_export_states c sold snew) in
   c_sordered c' = q /\ c_exps c' = map hd_name q /\ c_smap c' = map hd_name q /\
   c_refs c' = c_refs c /\ c_ordered c' = c_ordered c /\ c_size c' = c_size c /\
   c_chained c' = c_chained c /\ c_state c' = c_state c /\ c_name c' = c_name c).
Proof. exact exported_kept. Qed.
Print Assumptions c71_kept.

(** no earlier configuration (successful or not) influences what is exported now *)
Theorem c71_reexport : forall n os1 os2 sz rold rnew sold snew,
  snd (ch_export_refs (chrun (constructed n) os1) sz rold rnew) =
  snd (ch_export_refs (chrun (constructed n) os2) sz rold rnew) /\
  snd (ch_export_states (chrun (constructed n) os1) sold snew) =
  snd (ch_export_states (chrun (constructed n) os2) sold snew).
Proof. exact reexport. Qed.
Print Assumptions c71_reexport.

(** ---- concrete controllers *)
Definition hd p i : handle := {| hd_prefix := p; hd_itf := i |}.

Example c71_example_export :
  snd (ch_export_refs (chrun (constructed "pid") [HExportRefs 2 [hd "pid" "x"; hd "pid" "x"] []]) 1
         [hd "pid" "x"] [hd "pid/left" "y"]) = Some [hd "pid" "x"; hd "pid/left" "y"] /\
  snd (ch_export_refs (constructed "pid") 2 [hd "pid" "x"; hd "pid" "x"] []) = None /\
  snd (ch_export_refs (constructed "pid") 1 [hd "arm" "x"] []) = None /\
  snd (ch_export_refs (constructed "pid") 0 [hd "pid" "x"] []) = None.
Proof. vm_compute. auto. Qed.

Example c71_example_mode :
  c_chained (chrun (constructed "pid") [HState Inactive; HSetMode true true; HState Active; HSetMode false true]) = true /\
  c_chained (chrun (constructed "pid") [HState Inactive; HSetMode true false; HState Active]) = false.
Proof. vm_compute. auto. Qed.

(** ---- what is false *)

(** "The prefix should begin with the controller's name" does not keep a controller inside its own namespace: controller pid
    may export pid2/x, which belongs to controller pid2. *)
Theorem c71_namespace_refuted : exists c sz old new r h, snd (ch_export_refs c sz old new) = Some r /\ In h r /\
  ~ own_namespace (c_name c) h.
Proof.
  exists (constructed "pid"), 1, [hd "pid2" "x"], [], [hd "pid2" "x"], (hd "pid2" "x").
  split; [vm_compute; reflexivity|]. split; [now left|].
  intros [H|[r H]]; [discriminate|]. cbn in H. discriminate.
Qed.
Print Assumptions c71_namespace_refuted.

(** Two controllers can export the same full name without either noticing. *)
Theorem c71_clash_refuted : exists c1 c2 s1 s2 h1 h2, c_name c1 <> c_name c2 /\
  snd (ch_export_refs c1 s1 [h1] []) = Some [h1] /\ snd (ch_export_refs c2 s2 [h2] []) = Some [h2] /\ hd_name h1 = hd_name h2.
Proof.
  exists (constructed "pid"), (constructed "pid2"), 1, 1, (hd "pid2" "x"), (hd "pid2" "x").
  split; [discriminate|]. vm_compute. auto.
Qed.
Print Assumptions c71_clash_refuted.

(** The default on_export_reference_interfaces exports one interface per remembered name; as the names are forgotten just
    before it runs, it never exports any. *)
Theorem c71_default_exports_nothing : forall c sz hs, default_refs c [] = (sz, hs) ->
  snd (ch_export_refs c sz hs []) = Some [].
Proof. exact default_exports_nothing. Qed.
Print Assumptions c71_default_exports_nothing.
