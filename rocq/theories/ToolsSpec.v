(** ToolsSpec.v -- what a user expects of the unspawner and the hardware spawner. *)
From Coq Require Import String List Bool.
From Verif Require Import Base Events HwModel RmModel RmSpec CmModel CmSpec SpawnModel SpawnSpec ToolsModel.
Import ListNotations.
Open Scope list_scope.

(** the log has an unload request of the tool for [n] that took the loaded, not running controller away; nothing but a load by
    someone else since then can have brought it back *)
Definition unloaded_by_it (w : world) (n : name) : Prop :=
  exists later f m1 m2 earlier, w_log w = later ++ Mine f m1 (CUnload n) m2 :: earlier /\
    loaded m1 n /\ state_in m1 n <> Some Active /\ ~ loaded m2 n /\ (not_reloaded later [n] -> ~ loaded (w_cm w) n).
(** the log has a request of the tool after which the component was in the state *)
Definition reached_by_it (w : world) (n : name) (target : lc) : Prop :=
  exists f m1 m2, In (Mine f m1 (CSetHw n target) m2) (w_log w) /\ lc_of (cm_rm m2) n = Some target.
Definition hw_known (m : cm) (n : name) : Prop := exists h, find_hw (cm_rm m) n = Some h.
