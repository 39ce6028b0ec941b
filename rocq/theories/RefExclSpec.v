(** RefExclSpec.v -- when the reference interfaces of a controller stay in place while they are in
    use: no service call rebuilds or removes them under the controller that holds one.

    A chainable controller registers its reference interfaces when it is configured; they are
    removed when it is cleaned up, unloaded or configured again (controller_manager.cpp 1415-1835). *)
From Verif Require Import Base Events HwModel RmModel RmSys ChainModel CmModel ExportSpec.

(** the service calls that touch the registered interfaces of controller [n] *)
Definition rebuilds (o : cop) (n : name) : Prop :=
  match o with CConfigure n' _ | CCleanup n' | CUnload n' => n' = n | _ => False end.
(** some controller holds a loan of command interface [k] *)
Definition in_use (m : cm) (k : name) : Prop := exists c, In c (cm_ctrls m) /\ In k (c_cloans c).
(** Whenever in this history such a call is made for a controller that is not active and that has
    [k] among its registered reference interfaces, nobody holds [k]. *)
Definition undisturbed (e : env) (allow : bool) (hs : list hwc) (ops : list cop) (k : name) : Prop :=
  forall pre o post m n c ks,
    ops = pre ++ o :: post -> crun e allow (cm_start hs) pre = Val m ->
    rebuilds o n -> find_ctrl m n = Some c -> c_lc c <> Active ->
    refs_of m n = Some ks -> In k ks -> ~ in_use m k.
