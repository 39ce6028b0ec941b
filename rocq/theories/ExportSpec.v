(** ExportSpec.v -- words for C59: the interfaces a chainable controller exports follow its life cycle. *)
From Verif Require Import Base Events HwModel RmModel RmSpec CmModel CmSpec UpdateSpec FollowSpec.
Open Scope list_scope.

(** no life-cycle callback of controller [n] ever ends in an error or an exception (refusing, i.e. FAILURE, is allowed) *)
Definition steady (e : env) (n : name) : Prop := forall t cb, e_ctrl e t n cb <> CbError /\ e_ctrl e t n cb <> CbThrow.
(** its on_cleanup succeeds *)
Definition cleans (e : env) (n : name) : Prop := forall t, e_ctrl e t n Events.CCleanup = CbSuccess.
(** the reference interfaces (exported state interfaces) the resource manager has on record for controller [n] *)
Definition refs_of (m : cm) (n : name) : option (list name) := aget (rm_refs (cm_rm m)) n.
Definition exps_of (m : cm) (n : name) : option (list name) := aget (rm_exps (cm_rm m)) n.
(** everything on record for [n] is available / nothing of it is *)
Definition offered (m : cm) (n : name) : Prop :=
  (forall ks k, refs_of m n = Some ks -> In k ks -> In k (rm_avc (cm_rm m))) /\
  (forall ks k, exps_of m n = Some ks -> In k ks -> In k (rm_avs (cm_rm m))).
Definition withdrawn (m : cm) (n : name) : Prop :=
  (forall ks k, refs_of m n = Some ks -> In k ks -> ~ In k (rm_avc (cm_rm m))) /\
  (forall ks k, exps_of m n = Some ks -> In k ks -> ~ In k (rm_avs (cm_rm m))).
(** [c]'s exports are on record exactly as it exports them; a state interface whose name is taken is left out *)
Definition on_record (m : cm) (c : ctrl) : Prop :=
  refs_of m (c_name c) = Some (c_refs c) /\ exists es, exps_of m (c_name c) = Some es /\ incl es (c_exps c).
Definition not_on_record (m : cm) (n : name) : Prop := refs_of m n = None /\ exps_of m n = None.
(** the controllers an operation may try to start: those of the pending request; the fallback controllers *)
Definition may_start (m : cm) (o : cop) : list name :=
  match o with
  | CPerform => match cm_pend m with Some p => p_act p | None => [] end
  | CUpdate => flat_map c_fallback (cm_ctrls m)
  | _ => []
  end.
