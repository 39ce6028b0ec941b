(** RmWitness.v -- concrete environments and component sets for the examples and refutations. *)
From Verif Require Import Base Events HwModel RmModel RmSys RmSpec.
Open Scope string_scope.
Open Scope list_scope.

(** everything succeeds, nothing is locked, everything is due *)
Definition env_ok : env :=
  {| e_hw := fun _ _ _ => CbSuccess; e_hw_error := fun _ _ => true;
     e_read := fun _ _ => Ret ROk; e_write := fun _ _ => Ret ROk;
     e_locked := fun _ _ => false; e_due := fun _ _ => true;
     e_prepare := fun _ _ _ _ => Ret ROk; e_perform := fun _ _ _ _ => Ret ROk;
     e_ctrl := fun _ _ _ => CbSuccess; e_ctrl_error := fun _ _ => true;
     e_update := fun _ _ => Ret ROk; e_update_due := fun _ _ => true;
     e_set_chained := fun _ _ _ => true |}.

Definition with_hwcb (e : env) (f : trace -> name -> hcb -> cbret) : env :=
  {| e_hw := f; e_hw_error := e_hw_error e; e_read := e_read e; e_write := e_write e;
     e_locked := e_locked e; e_due := e_due e; e_prepare := e_prepare e; e_perform := e_perform e;
     e_ctrl := e_ctrl e; e_ctrl_error := e_ctrl_error e; e_update := e_update e;
     e_update_due := e_update_due e; e_set_chained := e_set_chained e |}.
Definition with_read (e : env) (f : trace -> name -> rres) : env :=
  {| e_hw := e_hw e; e_hw_error := e_hw_error e; e_read := f; e_write := e_write e;
     e_locked := e_locked e; e_due := e_due e; e_prepare := e_prepare e; e_perform := e_perform e;
     e_ctrl := e_ctrl e; e_ctrl_error := e_ctrl_error e; e_update := e_update e;
     e_update_due := e_update_due e; e_set_chained := e_set_chained e |}.
Definition with_write (e : env) (f : trace -> name -> rres) : env :=
  {| e_hw := e_hw e; e_hw_error := e_hw_error e; e_read := e_read e; e_write := f;
     e_locked := e_locked e; e_due := e_due e; e_prepare := e_prepare e; e_perform := e_perform e;
     e_ctrl := e_ctrl e; e_ctrl_error := e_ctrl_error e; e_update := e_update e;
     e_update_due := e_update_due e; e_set_chained := e_set_chained e |}.

Definition hw_ (n : name) (k : hkind) (g : name) (st cmd : list name) : hwc :=
  {| h_name := n; h_kind := k; h_group := g; h_rated := false; h_state := st; h_cmd := cmd; h_lc := Unknown |}.

(** an arm (system), a gripper (actuator) and a camera (sensor) without groups *)
Definition plain : list hwc :=
  [ hw_ "gripper" Actuator "" ["g/position"] ["g/position"];
    hw_ "camera" Sensor "" ["c/image"] [];
    hw_ "arm" System "" ["a/position"; "a/velocity"] ["a/position"; "a/velocity"] ].

(** the same with arm and gripper in one group *)
Definition grouped : list hwc :=
  [ hw_ "gripper" Actuator "G" ["g/position"] ["g/position"];
    hw_ "camera" Sensor "" ["c/image"] [];
    hw_ "arm" System "G" ["a/position"; "a/velocity"] ["a/position"; "a/velocity"] ].

Definition all_up : list rop := [OSet "gripper" Active; OSet "camera" Active; OSet "arm" Active].

(** gripper's read fails *)
Definition env_grip_read : env :=
  with_read env_ok (fun _ n => if String.eqb n "gripper" then Ret RError else Ret ROk).
Definition env_grip_deact : env :=
  with_write env_ok (fun _ n => if String.eqb n "gripper" then Ret RDeactivate else Ret ROk).
Definition env_act_err : env :=
  with_hwcb env_ok (fun _ n cb => match cb with HActivate => CbError | _ => CbSuccess end).

Lemma wf_plain : wf_hw plain.
Proof.
  constructor; simpl; repeat (constructor; [simpl; intuition discriminate|]); constructor.
Qed.
Lemma wf_grouped : wf_hw grouped.
Proof.
  constructor; simpl; repeat (constructor; [simpl; intuition discriminate|]); constructor.
Qed.
