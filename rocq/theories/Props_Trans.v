(** Props_Trans.v -- C37-C39: transmissions.  [Reals] is exact arithmetic; a memory maps storage to values. *)
From Coq Require Import Reals List Bool String Arith Lra ZArith.
From Verif Require Import TransModel TransSpec TransProofs TransMain LimitsModel.
Import ListNotations.
Open Scope string_scope.
Open Scope list_scope.
Open Scope nat_scope.

(** C37: a round trip through the transmission is the identity, for every transmission the loaders build
    (hence with non-zero reductions), all handles with storage of their own and all values. *)
Theorem c37_actuators : forall k js acts t jh ah c,
  load Reals k js acts = Some t -> configure Reals t jh ah = Some c -> separate jh ah ->
  forall m h p, In h ah -> h_ptr h = Some p -> joint_to_actuator Reals c (actuator_to_joint Reals c m) p = m p.
Proof. exact main_actuators. Qed.
Print Assumptions c37_actuators.
(** absolute positions are only mapped towards the joints *)
Theorem c37_joints : forall k js acts t jh ah c,
  load Reals k js acts = Some t -> configure Reals t jh ah = Some c -> separate jh ah ->
  forall m h p, In h jh -> h_ptr h = Some p -> h_itf h <> "absolute_position" ->
  actuator_to_joint Reals c (joint_to_actuator Reals c m) p = m p.
Proof. exact main_joints. Qed.
Print Assumptions c37_joints.
(** only joint values are written by the one, only actuator values by the other *)
Theorem c37_frame : forall t jh ah c, configure Reals t jh ah = Some c -> forall m p,
  (~ In p (storage jh) -> actuator_to_joint Reals c m p = m p) /\
  (~ In p (storage ah) -> joint_to_actuator Reals c m p = m p).
Proof. exact main_frame. Qed.
Print Assumptions c37_frame.
Definition hd (n : string) (k : itf) (p : nat) : handle := {| h_prefix := n; h_itf := itf_name k; h_ptr := Some p |}.
Definition jhs := [hd "b" Pos 0; hd "a" Vel 1; hd "a" Pos 2; hd "b" Vel 3; hd "a" Eff 4; hd "b" Eff 5].
Definition ahs := [hd "m1" Pos 10; hd "m2" Pos 11; hd "m1" Vel 12; hd "m2" Vel 13; hd "m1" Eff 14; hd "m2" Eff 15].
Definition ji (n : string) (r o : R) : jinfo Reals := {| ji_name := n; ji_red := (r : num Reals); ji_off := (o : num Reals) |}.
Definition ai (n : string) (r : R) : ainfo Reals := {| ai_name := n; ai_red := (r : num Reals) |}.
Definition diff := (Differential (A := Reals) 2 3 5 7 1 (-1))%R.
Definition bar := (FourBar (A := Reals) 2 3 5 7 1 (-1))%R.
Ltac nonzero := repeat match goal with |- context [Req_EM_T ?a ?b] => destruct (Req_EM_T a b); [exfalso; lra|] end; reflexivity.
Example c37_example :
  load Reals KDifferential [ji "a" 5 1; ji "b" 7 (-1)] [ai "m1" 2; ai "m2" 3] = Some diff /\
  load Reals KFourBar [ji "a" 5 1; ji "b" 7 (-1)] [ai "m1" 2; ai "m2" 3] = Some bar /\
  (exists c, configure Reals diff jhs ahs = Some c /\ c_joint _ c Pos = [2; 0] /\ c_act _ c Eff = [14; 15]) /\
  (exists c, configure Reals bar jhs ahs = Some c) /\ separate jhs ahs /\
  configure Reals diff [hd "a" Pos 0] ahs = None.
Proof.
  split; [cbn; nonzero|]. split; [cbn; nonzero|]. split; [eexists; repeat split|]. split; [eexists; reflexivity|]. split; [|reflexivity].
  unfold separate. cbn. repeat (constructor; [cbn; intuition discriminate|]). constructor.
Qed.
(** a zero reduction is refused *)
Example c37_example_zero : load Reals KFourBar [ji "a" 5 1; ji "b" 0 (-1)] [ai "m1" 2; ai "m2" 3] = None.
Proof. cbn. repeat match goal with |- context [Req_EM_T ?a ?b] => destruct (Req_EM_T a b); [try (exfalso; lra)|try (exfalso; lra)] end; reflexivity. Qed.
(** in double arithmetic the round trip is not exact: 1 rad/s through a reduction of 49 *)
Definition Doubles : arith := {| num := F; nadd := fadd; nsub := fsub; nmul := fmul; ndiv := fdiv; ntwo := of_Z 2;
  is_zero := fun x => fle x fzero && fle fzero x |}.
Theorem c37_doubles_refuted : exists js acts t jh ah c (m : mem Doubles) p,
  load Doubles KSimple js acts = Some t /\ configure Doubles t jh ah = Some c /\ separate jh ah /\
  ah = [hd "m" Vel p] /\ m p = of_Z 1 /\ flt (joint_to_actuator Doubles c (actuator_to_joint Doubles c m) p) (m p) = true.
Proof.
  exists [{| ji_name := "j"; ji_red := (of_Z 49 : num Doubles); ji_off := fzero |}], [], (Simple (of_Z 49 : num Doubles) (fzero : num Doubles)),
    [hd "j" Vel 0], [hd "m" Vel 1].
  eexists. exists (fun _ => of_Z 1), 1. split; [vm_compute; reflexivity|]. split; [reflexivity|].
  split; [unfold separate; cbn; repeat (constructor; [cbn; intuition discriminate|]); constructor|].
  split; [reflexivity|]. split; [reflexivity|]. vm_compute. reflexivity.
Qed.
Print Assumptions c37_doubles_refuted.

(** C38: joint power equals actuator power, in both directions.  [pair_of hs n0 n1 k x]: exactly one handle
    for interface k of n0 and of n1, with the values at fst x and snd x. *)
Theorem c38_two_joints : forall kd js acts t jh ah c,
  load Reals kd js acts = Some t -> kd <> KSimple -> configure Reals t jh ah = Some c -> separate jh ah ->
  forall e j0 j1 a0 a1 xv xe yv ye m, effort_like e -> handled kd e -> j0 <> j1 -> a0 <> a1 ->
  pair_of jh j0 j1 Vel xv -> pair_of jh j0 j1 e xe -> pair_of ah a0 a1 Vel yv -> pair_of ah a0 a1 e ye ->
  let m1 := actuator_to_joint Reals c m in let m2 := joint_to_actuator Reals c m in
  (m1 (fst xv) * m1 (fst xe) + m1 (snd xv) * m1 (snd xe) = m (fst yv) * m (fst ye) + m (snd yv) * m (snd ye))%R /\
  (m2 (fst yv) * m2 (fst ye) + m2 (snd yv) * m2 (snd ye) = m (fst xv) * m (fst xe) + m (snd xv) * m (snd xe))%R.
Proof. exact main_power. Qed.
Print Assumptions c38_two_joints.
Theorem c38_simple : forall k js acts t jh ah c e j a xv xe yv ye m, k = KSimple ->
  load Reals k js acts = Some t -> configure Reals t jh ah = Some c -> separate jh ah -> effort_like e ->
  only jh j Vel xv -> only jh j e xe -> only ah a Vel yv -> only ah a e ye ->
  let m1 := actuator_to_joint Reals c m in let m2 := joint_to_actuator Reals c m in
  (m1 xv * m1 xe = m yv * m ye)%R /\ (m2 yv * m2 ye = m xv * m xe)%R.
Proof. exact main_simple. Qed.
Print Assumptions c38_simple.
Example c38_example :
  effort_like Eff /\ handled KFourBar Eff /\ pair_of jhs "a" "b" Vel (1, 3) /\ pair_of jhs "b" "a" Eff (5, 4) /\
  pair_of ahs "m1" "m2" Vel (12, 13) /\ pair_of ahs "m1" "m2" Eff (14, 15).
Proof. unfold effort_like, handled, pair_of, only. cbn. repeat split; auto. Qed.

(** C39: the parameters apply to the joints they were declared for -- if the joints (actuators) are declared
    in alphabetical order. *)
Theorem c39_alphabetical_partial : forall kd js acts t jh ah c,
  load Reals kd js acts = Some t -> kd <> KSimple -> configure Reals t jh ah = Some c -> separate jh ah ->
  forall k x y m j0 j1 js' a0 a1 acts', handled kd k -> js = j0 :: j1 :: js' -> acts = a0 :: a1 :: acts' ->
  str_lt (ji_name _ j0) (ji_name _ j1) = true -> str_lt (ai_name _ a0) (ai_name _ a1) = true ->
  pair_of jh (ji_name _ j0) (ji_name _ j1) k x -> pair_of ah (ai_name _ a0) (ai_name _ a1) k y ->
  (actuator_to_joint Reals c m (fst x), actuator_to_joint Reals c m (snd x)) =
  law kd (ai_red _ a0) (ai_red _ a1) (ji_red _ j0) (ji_red _ j1) (ji_off _ j0) (ji_off _ j1) k (m (fst y)) (m (snd y)).
Proof. exact main_declared. Qed.
Print Assumptions c39_alphabetical_partial.
Theorem c39_simple : forall red off jh ah c k j a x y m, configure Reals (Simple red off) jh ah = Some c -> separate jh ah ->
  only jh j k x -> only ah a k y ->
  actuator_to_joint Reals c m x = (match k with Eff | Tor | For => m y * red | Vel => m y / red | Pos | Abs => m y / red + off end)%R /\
  joint_to_actuator Reals c m y = (match k with Eff | Tor | For => m x / red | Vel => m x * red | Pos => (m x - off) * red | Abs => m y end)%R.
Proof. exact simple_at. Qed.
Print Assumptions c39_simple.
(** otherwise the first declared joint gets the second one's parameters and vice versa *)
Theorem c39_swapped : forall kd js acts t jh ah c,
  load Reals kd js acts = Some t -> kd <> KSimple -> configure Reals t jh ah = Some c -> separate jh ah ->
  forall k x y m j0 j1 js' a0 a1 acts', handled kd k -> js = j0 :: j1 :: js' -> acts = a0 :: a1 :: acts' ->
  str_lt (ji_name _ j1) (ji_name _ j0) = true -> str_lt (ai_name _ a0) (ai_name _ a1) = true ->
  pair_of jh (ji_name _ j0) (ji_name _ j1) k x -> pair_of ah (ai_name _ a0) (ai_name _ a1) k y ->
  (actuator_to_joint Reals c m (snd x), actuator_to_joint Reals c m (fst x)) =
  law kd (ai_red _ a0) (ai_red _ a1) (ji_red _ j0) (ji_red _ j1) (ji_off _ j0) (ji_off _ j1) k (m (fst y)) (m (snd y)).
Proof. exact main_swapped. Qed.
Print Assumptions c39_swapped.
(** so the unrestricted property is false: joint "b" declared first, with reduction 5 *)
Theorem c39_refuted : exists t jh ah c m x y,
  load Reals KDifferential [ji "b" 5 1; ji "a" 7 (-1)] [ai "m1" 2; ai "m2" 3] = Some t /\ configure Reals t jh ah = Some c /\ separate jh ah /\
  pair_of jh "b" "a" Vel x /\ pair_of ah "m1" "m2" Vel y /\
  actuator_to_joint Reals c m (fst x) <> ((m (fst y) / 2 + m (snd y) / 3) / (2 * 5))%R.
Proof.
  assert (S : separate jhs ahs) by (unfold separate; cbn; repeat (constructor; [cbn; intuition discriminate|]); constructor).
  assert (L : load Reals KDifferential [ji "b" 5 1; ji "a" 7 (-1)] [ai "m1" 2; ai "m2" 3] = Some diff) by (cbn; nonzero).
  destruct (configure Reals diff jhs ahs) as [c|] eqn:C; [|discriminate].
  assert (P1 : pair_of jhs "b" "a" Vel (3, 1)) by (split; reflexivity). assert (P2 : pair_of ahs "m1" "m2" Vel (12, 13)) by (split; reflexivity).
  pose proof (c39_swapped KDifferential _ _ _ _ _ _ L ltac:(discriminate) C S Vel (3, 1) (12, 13) (fun p => if Nat.eqb p 12 then 2%R else 0%R)
    _ _ _ _ _ _ I eq_refl eq_refl eq_refl eq_refl P1 P2) as Q.
  exists diff, jhs, ahs, c, (fun p => if Nat.eqb p 12 then 2%R else 0%R), (3, 1), (12, 13). repeat (split; [assumption|]).
  apply pair_equal_spec in Q. destruct Q as [_ Q]. intros E. pose proof (eq_trans (eq_sym Q) E) as Z. cbn in Z. lra.
Qed.
Print Assumptions c39_refuted.
