(** FallbackSpec.v -- words for C25 when the fallback controllers are chainable or use what other controllers export. *)
From Verif Require Import Base Events HwModel RmModel RmSys RmSpec ChainModel CmModel CmSpec UpdateSpec ExportSpec RefExclSpec.
Open Scope list_scope.

(** after the step [x] runs: it is a fallback that is started in this step, or it is active at the end of it *)
Definition runs_after (m m' : cm) (x : name) : Prop := fallback_for m m' x \/ state_in m' x = Some Active.
(** nobody has claimed [k] *)
Definition unclaimed (m : cm) (k : name) : Prop := aget (rm_claimed (cm_rm m)) k = Some false.
(** Command interface [k] can be taken over in this step: it is an available interface of the hardware, or a registered
    reference interface of a controller that runs afterwards; the latter is unclaimed, or available and held by somebody. *)
Definition to_command (m m' : cm) (undisturbed_itf : name -> Prop) (k : name) : Prop :=
  (In k (flat_map h_cmd (rm_hw (cm_rm m))) /\ In k (rm_avc (cm_rm m))) \/
  (undisturbed_itf k /\ (exists x ks, refs_of m x = Some ks /\ In k ks /\ runs_after m m' x) /\
   (unclaimed m k \/ (In k (rm_avc (cm_rm m)) /\ in_use m k))).
(** State interface [k] can be read: of the hardware and available, or exported by a controller that runs afterwards. *)
Definition to_read (m m' : cm) (k : name) : Prop :=
  (In k (flat_map h_state (rm_hw (cm_rm m))) /\ In k (rm_avs (cm_rm m))) \/
  (exists x ks, exps_of m x = Some ks /\ In k ks /\ runs_after m m' x).
(** A fallback is ready: it is loaded and configured, may even be active already and command something (then it is stopped
    and started again), and asks by name for interfaces that can be had. *)
Definition ready_fallback (m m' : cm) (und : name -> Prop) (f : name) : Prop :=
  exists c, In c (cm_ctrls m) /\ c_name c = f /\ (c_lc c = Inactive \/ (c_lc c = Active /\ exists k, wants_cmd m c k)) /\ by_name c /\
    (forall k, wants_cmd m c k -> to_command m m' und k) /\ (forall k, wants_state m c k -> to_read m m' k).
