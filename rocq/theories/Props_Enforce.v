(** Props_Enforce.v -- C69: command limits in the resource manager (EnforceModel.v), for every robot description, every
    order in which the joints are visited and every history of operations. *)
From Coq Require Import ZArith Bool List String SpecFloat.
From Verif Require Import Base LimitsModel LimitsSpec FloatReal EnforceModel EnforceSpec EnforceMain EnforceHist EnforceFlag.
Import ListNotations.
Open Scope string_scope.
Open Scope list_scope.

(** the pass at the end of the update cycle changes only commands of joints that have limits, only those a controller holds,
    and nothing else *)
Theorem c69_only_held : forall infos period ops free order dt w' r, let w := after infos period ops in
  step w (OEnforce free order dt) = (w', r) ->
  (forall n, value w' n <> value w n -> held w n /\ limited_interface infos n) /\
  (forall n, measured w' n = measured w n) /\ (forall n, held w' n <-> held w n).
Proof. exact main_only_held. Qed.
Print Assumptions c69_only_held.

(** what is set on an interface of a joint without limits (or with limits switched off, or of another type) is stored as it is *)
Theorem c69_unlimited_stored : forall infos period ops n v busy w' r, let w := after infos period ops in
  ~ limited_interface infos n -> (busy < 10)%nat ->
  step w (OSet n v busy) = (w', r) ->
  r = ROk true /\ forall x, value w n = Some x -> value w' n = Some v.
Proof. exact main_unlimited. Qed.
Print Assumptions c69_unlimited_stored.

(** setting a command changes no other command *)
Theorem c69_set_one : forall w n v busy w' r, step w (OSet n v busy) = (w', r) -> forall n', n' <> n -> value w' n' = value w n'.
Proof. exact main_set_one. Qed.
Print Assumptions c69_set_one.

(** in normal operation, whatever is set on a position, velocity or effort interface of a limited joint, what is stored lies
    inside the joint's limits *)
Theorem c69_set_within : forall infos period hw j l ops k v busy w', sensible l -> only_limits infos hw j l -> dt_ok period -> double period ->
  let w0 := after infos period [] in let w := after infos period ops in
  calm j l w0 ops -> op_ok j l w (OSet (itf j k) v busy) -> In k bounded_kinds -> isnan v = false -> value w (itf j k) <> None ->
  step w (OSet (itf j k) v busy) = (w', ROk true) ->
  exists x, value w' (itf j k) = Some x /\ bounded l k x.
Proof. exact main_set_within. Qed.
Print Assumptions c69_set_within.

(** and so does every such command a controller holds after the pass at the end of the cycle, whoever wrote it *)
Theorem c69_cycle_within : forall infos period hw j l ops k v order dt w' b, sensible l -> only_limits infos hw j l -> dt_ok period -> double period ->
  let w0 := after infos period [] in let w := after infos period ops in
  calm j l w0 ops -> op_ok j l w (OEnforce true order dt) -> In j order -> In k bounded_kinds -> held w (itf j k) -> value w (itf j k) = Some v -> isnan v = false ->
  step w (OEnforce true order dt) = (w', ROk b) ->
  exists x, value w' (itf j k) = Some x /\ bounded l k x.
Proof. exact main_cycle_within. Qed.
Print Assumptions c69_cycle_within.

(** no joint in two hardware components: when the pass says that nothing was limited, no command has changed *)
Theorem c69_reports : forall infos period ops order dt w', let w := after infos period ops in
  (forall j hw hw' l l', gives_limits infos hw j l -> gives_limits infos hw' j l' -> hw = hw') ->
  step w (OEnforce true order dt) = (w', ROk false) -> forall n, value w' n = value w n.
Proof. exact main_reports. Qed.
Print Assumptions c69_reports.

(** -------------------------------------------------- a robot *)
Definition q (a b : Z) : F := fdiv (of_Z a) (of_Z b).
(** -10..10, 1 per second, 5 Nm *)
Definition lim : jl := {| l_hp := true; l_hv := true; l_ha := false; l_hd := false; l_he := true;
  l_minp := of_Z (-10); l_maxp := of_Z 10; l_maxv := of_Z 1; l_maxa := nan; l_maxd := nan; l_maxj := nan; l_maxe := of_Z 5 |}.
Definition arm : hwinfo := {| hi_name := "arm"; hi_limits := [("a", lim); ("b", lim); ("c", lim)]; hi_soft := []; hi_joints := [("a", true); ("b", true); ("c", false)] |}.
Definition one : F := of_Z 1.
Definition setup : list op :=
  [OState "a/position" (of_Z 0); OState "b/position" (of_Z 0); OState "c/position" (of_Z 0);
   OAddCmd "a" "position" nan; OAddCmd "a" "effort" nan; OAddCmd "b" "position" nan; OAddCmd "c" "position" nan;
   OClaim "a/position" true; OClaim "a/effort" true; OClaim "b/position" true; OClaim "c/position" true].
Ltac dbl := vm_compute; reflexivity.
Example c69_nonvacuous_robot : sensible lim /\ only_limits [arm] "arm" "a" lim /\ dt_ok one /\ double one /\ ~ limited_joint [arm] "c".
Proof.
  split; [|split; [|split; [|split]]].
  - repeat split; try dbl. discriminate. discriminate.
  - split; [|split].
    + exists arm. repeat split; [left; reflexivity|left; reflexivity|]. cbn. intros b [E|[E|[E|[]]]]; congruence.
    + intros hw' l' (hi & [<-|[]] & <- & I & _). split; [reflexivity|]. cbn in I. destruct I as [E|[E|[E|[]]]]; congruence.
    + intros hi [<-|[]]. reflexivity.
  - split; dbl.
  - dbl.
  - intros (hw & l & hi & [<-|[]] & _ & _ & H). specialize (H false). cbn in H. discriminate H. auto.
Qed.
Lemma itf_a k j' k' : In k kinds -> In k' kinds -> itf j' k' = itf "a" k -> j' = "a".
Proof. intros A B E. apply EnforceProofs.itf_inj in E; [apply E|exact B|exact A]. Qed.
Ltac calm1 := first [exact I | split; [dbl|split; intros X; first [vm_compute in X; discriminate X | split; dbl]]
  | split; [split; [dbl|first [left; dbl|right; dbl]]|first [intros k K E; eapply itf_a; [exact K| |exact E]; cbn; tauto | intros X; discriminate X]]
  | split; [dbl|first [left; dbl|right; dbl]] | split; [split; dbl|split; [dbl|intros X; discriminate X]]].
(** a command far out is cut where the joint can be within one cycle; a large effort to the maximum effort; a disabled joint
    gets what was commanded; a command the hardware itself has put there is limited by the pass *)
Example c69_nonvacuous_calm : calm "a" lim (after [arm] one []) setup.
Proof. unfold setup. cbn [calm]. repeat (split; [cbn [op_ok]; calm1|]). exact I. Qed.
Example c69_nonvacuous_set : let w := after [arm] one setup in
  value (fst (step w (OSet "a/position" (of_Z 50) 0))) "a/position" = Some (of_Z 1) /\
  value (fst (step w (OSet "a/effort" (of_Z 50) 0))) "a/effort" = Some (of_Z 5) /\
  value (fst (step w (OSet "c/position" (of_Z 50) 0))) "c/position" = Some (of_Z 50) /\
  (let w1 := run_ops w [OHwSet "a/position" (of_Z 50); OHwSet "c/position" (of_Z 50); OEnforce true ["b"; "a"] one] in
   value w1 "a/position" = Some (of_Z 1) /\ value w1 "c/position" = Some (of_Z 50)) /\
  snd (step w (OEnforce true ["b"; "a"] one)) = ROk false.
Proof. vm_compute. repeat split. Qed.

(** "within one cycle the commanded position moves no further than the joint can at its maximum velocity" is false: the limiter
    takes each set_value for a cycle of its own.  Two in one update move the joint twice as far *)
Theorem c69_two_sets_refuted : exists infos period l ops,
  only_limits infos "arm" "a" l /\ calm "a" l (after infos period []) ops /\ l_maxv l = of_Z 1 /\ period = of_Z 1 /\
  measured (after infos period ops) "a/position" = Some (of_Z 0) /\
  value (after infos period (ops ++ [OSet "a/position" (of_Z 5) 0; OSet "a/position" (of_Z 5) 0; OEnforce true ["a"; "b"] period])) "a/position" = Some (of_Z 2).
Proof.
  exists [arm], one, lim, setup. split; [apply c69_nonvacuous_robot|]. split; [exact c69_nonvacuous_calm|]. vm_compute. repeat split.
Qed.
Print Assumptions c69_two_sets_refuted.
(** and so does one call that finds the handle's lock taken the first time: every retry is limited again, starting from the
    result of the try before.  A call that gives up (and answers false) has still moved the limiter's memory ten cycles on *)
Theorem c69_retries_refuted : exists infos period l ops,
  only_limits infos "arm" "a" l /\ calm "a" l (after infos period []) ops /\ l_maxv l = of_Z 1 /\ period = of_Z 1 /\
  let w := after infos period ops in
  measured w "a/position" = Some (of_Z 0) /\
  (exists w1, step w (OSet "a/position" (of_Z 5) 2) = (w1, ROk true) /\ value w1 "a/position" = Some (of_Z 3)) /\
  (exists w2, step w (OSet "a/position" (of_Z 10) 10) = (w2, ROk false) /\ value w2 "a/position" = value w "a/position" /\
     value (fst (step w2 (OSet "a/position" (of_Z 10) 0))) "a/position" = Some (of_Z 10)).
Proof.
  exists [arm], one, lim, setup. split; [apply c69_nonvacuous_robot|]. split; [exact c69_nonvacuous_calm|]. split; [reflexivity|]. split; [reflexivity|].
  cbn zeta. split; [vm_compute; reflexivity|]. split; eexists; (split; [vm_compute; reflexivity|]); vm_compute; auto.
Qed.
Print Assumptions c69_retries_refuted.
(** one joint outside its limits stops the pass with an exception, and the joints after it keep commands outside theirs *)
Theorem c69_exception_refuted : exists infos period l ops w',
  only_limits infos "arm" "b" l /\ held (after infos period ops) "b/position" /\
  step (after infos period ops) (OEnforce true ["a"; "b"] period) = (w', RThrew) /\
  value w' "b/position" = Some (of_Z 50) /\ l_maxp l = of_Z 10.
Proof.
  exists [arm], one, lim, (setup ++ [OState "a/position" (of_Z 11); OHwSet "a/position" (of_Z 5); OHwSet "b/position" (of_Z 50)]). eexists.
  split; [|split; [vm_compute; reflexivity|split; [vm_compute; reflexivity|split; vm_compute; reflexivity]]].
  split; [|split].
  - exists arm. repeat split; [left; reflexivity|right; left; reflexivity|]. cbn. intros b [E|[E|[E|[]]]]; congruence.
  - intros hw' l' (hi & [<-|[]] & <- & I & _). split; [reflexivity|]. cbn in I. destruct I as [E|[E|[E|[]]]]; congruence.
  - intros hi [<-|[]]. reflexivity.
Qed.
Print Assumptions c69_exception_refuted.
(** a joint that two hardware components describe: the pass can say that nothing was limited although it changed the command *)
Definition hand : hwinfo := {| hi_name := "hand"; hi_limits := [("a", lim)]; hi_soft := []; hi_joints := [("a", true)] |}.
Theorem c69_reports_refuted : exists infos period ops w', let w := after infos period ops in
  step w (OEnforce true ["a"; "a"] period) = (w', ROk false) /\ value w "a/effort" = Some (of_Z 50) /\ value w' "a/effort" = Some (of_Z 5).
Proof.
  exists [arm; hand], one, (setup ++ [OHwSet "a/effort" (of_Z 50)]). eexists. cbn zeta. split; [vm_compute; reflexivity|]. split; vm_compute; reflexivity.
Qed.
Print Assumptions c69_reports_refuted.
