(** Props_Param.v -- C68: joint limits from parameters, and their update at run time. *)
From Coq Require Import List Bool String Lia.
From Verif Require Import ParamModel ParamSpec ParamProofs ParamMain.
From Verif Require LimitsModel.
Import ListNotations.
Open Scope string_scope.
Open Scope list_scope.

(** C68.  After init the limits are what the parameters say (NaN and false where they say nothing). *)
Theorem c68_init : forall sv js s, init sv js = Some s ->
  well_formed s /\ settled s /\ joints s = js /\ forall i, (i < List.length js)%nat -> as_said sv (nth i js "") (at_joint s i).
Proof. exact init_said. Qed.
Print Assumptions c68_init.

(** Setting one number changes that number of that joint at the next enforce, and nothing else. *)
Theorem c68_number : forall s i f x, well_formed s -> settled s -> (i < List.length (joints s))%nat ->
  let j := nth i (joints s) "" in
  let s' := on_enforce (on_set s [(("joint_limits." ++ j ++ "." ++ nf_name f)%string, VDouble x)]) in
  (num (at_joint s' i) f = x \/ (feq (num (at_joint s i) f) x = true /\ num (at_joint s' i) f = num (at_joint s i) f)) /\
  same_but_num f (at_joint s' i) (at_joint s i) /\
  (forall k, (k < List.length (joints s))%nat -> nth k (joints s) "" <> j -> same (at_joint s' k) (at_joint s k)).
Proof. exact set_number. Qed.
Print Assumptions c68_number.

(** Setting one flag: switching a usable limit on, or any limit but the position limits off. *)
Theorem c68_flag : forall s i f b, well_formed s -> settled s -> (i < List.length (joints s))%nat ->
  (b = true -> usable (at_joint s i) f) -> (b = false -> f <> HasP) ->
  let j := nth i (joints s) "" in
  let s' := on_enforce (on_set s [(("joint_limits." ++ j ++ "." ++ bf_name f)%string, VBool b)]) in
  flag (at_joint s' i) f = b /\ same_but_flag f (at_joint s' i) (at_joint s i) /\
  (forall k, (k < List.length (joints s))%nat -> nth k (joints s) "" <> j -> same (at_joint s' k) (at_joint s k)).
Proof. exact set_flag_ok. Qed.
Print Assumptions c68_flag.

(** Switching on a limit whose numbers are missing changes nothing. *)
Theorem c68_flag_refused : forall s i f, well_formed s -> settled s -> (i < List.length (joints s))%nat -> NoDup (joints s) ->
  ~ usable (at_joint s i) f ->
  let j := nth i (joints s) "" in
  let s' := on_enforce (on_set s [(("joint_limits." ++ j ++ "." ++ bf_name f)%string, VBool true)]) in
  forall k, (k < List.length (joints s))%nat -> same (at_joint s' k) (at_joint s k).
Proof. exact set_flag_refused. Qed.
Print Assumptions c68_flag_refused.

(** A limit can be switched on together with its number, in either order. *)
Theorem c68_on_with_number : forall s i f x ps, well_formed s -> settled s -> (i < List.length (joints s))%nat ->
  f <> HasP -> f <> Wrap -> LimitsModel.isnan x = false ->
  let j := nth i (joints s) "" in
  let a := (("joint_limits." ++ j ++ "." ++ nf_name (bound_of f))%string, VDouble x) in
  let b := (("joint_limits." ++ j ++ "." ++ bf_name f)%string, VBool true) in
  ps = [a; b] \/ ps = [b; a] ->
  let s' := on_enforce (on_set s ps) in
  flag (at_joint s' i) f = true /\ num (at_joint s' i) (bound_of f) = x.
Proof. exact on_with_number. Qed.
Print Assumptions c68_on_with_number.

(** A batch of new numbers is taken over completely (all of them differ from the old ones). *)
Theorem c68_batch : forall s i fx, well_formed s -> settled s -> (i < List.length (joints s))%nat -> NoDup (map fst fx) ->
  (forall f x, In (f, x) fx -> feq (num (at_joint s i) f) x = false) ->
  let j := nth i (joints s) "" in
  let s' := on_enforce (on_set s (map (fun p => (("joint_limits." ++ j ++ "." ++ nf_name (fst p))%string, VDouble (snd p))) fx)) in
  (forall f x, In (f, x) fx -> num (at_joint s' i) f = x) /\
  (forall f, ~ In f (map fst fx) -> num (at_joint s' i) f = num (at_joint s i) f) /\
  (forall f, flag (at_joint s' i) f = flag (at_joint s i) f).
Proof. exact batch. Qed.
Print Assumptions c68_batch.

(** Parameters of other joints, or of anything else, never change the limits of a joint -- whatever the names. *)
Theorem c68_unrelated : forall os s i, well_formed s -> settled s -> (i < List.length (joints s))%nat ->
  (forall ps p, In (Set_ ps) os -> In p ps -> ~ concerns (nth i (joints s) "") p) ->
  same (at_joint (run s os) i) (at_joint s i).
Proof. exact run_unrelated. Qed.
Print Assumptions c68_unrelated.

(** As long as no NaN is set, no limit is ever on with a NaN bound. *)
Theorem c68_no_nan : forall os s, (forall l, In l (in_use s) -> no_nan l) -> (forall l, In l (buffered s) -> no_nan l) ->
  (forall ps, In (Set_ ps) os -> no_nan_in ps) -> forall l, In l (in_use (run s os)) -> no_nan l.
Proof. exact run_no_nan. Qed.
Print Assumptions c68_no_nan.

(** Of several updates before the next enforce the last one (if it has an effect) replaces all others. *)
Theorem c68_last_wins : forall s pss ps, well_formed s -> settled s ->
  in_use (run s [Set_ ps; Enforce]) <> in_use s ->
  in_use (run s (map Set_ (pss ++ [ps]) ++ [Enforce])) = in_use (run s [Set_ ps; Enforce]).
Proof. exact last_wins. Qed.
Print Assumptions c68_last_wins.

(** What fails. *)
Definition one : F := LimitsModel.of_Z (BinNums.Zpos BinNums.xH).
Definition two : F := LimitsModel.of_Z (BinNums.Zpos (BinNums.xO BinNums.xH)).
Definition three : F := LimitsModel.of_Z (BinNums.Zpos (BinNums.xI BinNums.xH)).
Definition server1 : server := fun n =>
  if String.eqb n "joint_limits.a.has_velocity_limits" then Some (VBool true)
  else if String.eqb n "joint_limits.a.max_velocity" then Some (VDouble one)
  else if String.eqb n "joint_limits.a.has_position_limits" then Some (VBool true)
  else if String.eqb n "joint_limits.a.min_position" then Some (VDouble one)
  else if String.eqb n "joint_limits.a.max_position" then Some (VDouble two)
  else if String.eqb n "joint_limits.b.has_effort_limits" then Some (VBool true)
  else None.
Definition start : limiter := match init server1 ["a"; "b"] with Some s => s | None => {| joints := []; in_use := []; buffered := [] |} end.
Example start_ok : init server1 ["a"; "b"] = Some start. Proof. reflexivity. Qed.
Definition P (n : string) (x : F) : param := (n, VDouble x).
(** "Two successful updates are both in force": the second undoes the first. *)
Theorem c68_lost_update_refuted : exists s os j, well_formed s /\ settled s /\
  os = [Set_ [P ("joint_limits." ++ j ++ ".max_velocity")%string two]; Set_ [P ("joint_limits." ++ j ++ ".max_position")%string three]; Enforce] /\
  In j (joints s) /\ num (at_joint (run s os) 0) MaxP = three /\ num (at_joint (run s os) 0) MaxV = one.
Proof. exists start. eexists. exists "a". repeat split; try reflexivity. left. reflexivity. Qed.
Print Assumptions c68_lost_update_refuted.
(** "All parameters of one request are taken over": one that repeats the old value cancels those before it. *)
Theorem c68_batch_refuted : exists s ps, well_formed s /\ settled s /\
  ps = [P "joint_limits.a.max_velocity" two; P "joint_limits.a.min_position" one] /\ In "a" (joints s) /\ num (at_joint s 0) MinP = one /\
  num (at_joint (run s [Set_ ps; Enforce]) 0) MaxV = one.
Proof. exists start. eexists. repeat split; try reflexivity. left. reflexivity. Qed.
Print Assumptions c68_batch_refuted.
(** "Position limits can be switched off". *)
Theorem c68_position_off_refuted : exists s, well_formed s /\ settled s /\ In "a" (joints s) /\
  flag (at_joint (run s [Set_ [("joint_limits.a.has_position_limits", VBool false)]; Enforce]) 0) HasP = true.
Proof. exists start. repeat split; try reflexivity. left. reflexivity. Qed.
Print Assumptions c68_position_off_refuted.
(** "min_position stays below max_position while the position limits are on". *)
Theorem c68_inverted_refuted : exists s os, well_formed s /\ settled s /\ os = [Set_ [P "joint_limits.a.min_position" three]; Enforce] /\
  usable (at_joint s 0) HasP /\ flag (at_joint (run s os) 0) HasP = true /\ LimitsModel.flt (num (at_joint (run s os) 0) MaxP) (num (at_joint (run s os) 0) MinP) = true.
Proof. exists start. eexists. repeat split; reflexivity. Qed.
Print Assumptions c68_inverted_refuted.
(** "After init no limit is on without a number": has_effort_limits without max_effort is. *)
Theorem c68_init_nan_refuted : exists sv js s i, init sv js = Some s /\ (i < List.length js)%nat /\ flag (at_joint s i) HasE = true /\ LimitsModel.isnan (num (at_joint s i) MaxE) = true.
Proof. exists server1, ["a"; "b"], start, 1. split; [reflexivity|]. split; [cbn; lia|]. split; reflexivity. Qed.
Print Assumptions c68_init_nan_refuted.

(** Non-vacuity *)
Example start_wf : well_formed start /\ settled start /\ NoDup (joints start).
Proof. repeat split; cbn; try reflexivity. repeat constructor; cbn; intuition discriminate. Qed.
Example number_works : num (at_joint (run start [Set_ [P "joint_limits.a.max_velocity" two]; Enforce]) 0) MaxV = two. Proof. reflexivity. Qed.
Example both_seen_with_enforce : let s := run start [Set_ [P "joint_limits.a.max_velocity" two]; Enforce; Set_ [P "joint_limits.a.max_position" three]; Enforce] in
  num (at_joint s 0) MaxV = two /\ num (at_joint s 0) MaxP = three.
Proof. split; reflexivity. Qed.
Example flag_off : flag (at_joint (run start [Set_ [("joint_limits.a.has_velocity_limits", VBool false)]; Enforce]) 0) HasV = false. Proof. reflexivity. Qed.
Example refused_flag : flag (at_joint (run start [Set_ [("joint_limits.b.has_velocity_limits", VBool true)]; Enforce]) 1) HasV = false /\ ~ usable (at_joint start 1) HasV.
Proof. split; [reflexivity|]. cbn. discriminate. Qed.
Example a_no_nan : no_nan (at_joint start 0).
Proof. intros f H. destruct f; cbn in *; try discriminate; repeat split. Qed.
Example last_effective : in_use (run start [Set_ [P "joint_limits.a.max_velocity" two]; Enforce]) <> in_use start.
Proof.
  intro E. apply (f_equal (fun l => LimitsModel.flt (num (nth 0 l unset) MaxV) two)) in E. vm_compute in E. discriminate.
Qed.
