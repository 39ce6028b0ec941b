(** Props_Spawn.v -- C82: bringing controllers up with the spawner. *)
From Coq Require Import String List Bool Arith.
From Verif Require Import Base Events HwModel RmModel RmWitness CmModel CmSpec CmWitness SpawnModel SpawnSpec SpawnProofs SpawnMain SpawnWhy.
Import ListNotations.
Open Scope string_scope. Open Scope nat_scope. Open Scope list_scope.

(** When the spawner says that everything is up (exit code 0 without --unload-on-kill and without a signal, or it starts
    waiting for the signal), every controller of the command line is as asked: loaded, configured or running, whatever else
    was requested meanwhile, however many of its requests were answered too late, and whatever the history of the manager;
    provided nobody changed the state of a controller the spawner was already done with. *)
Theorem c82_everything_is_up : forall e allow hs l ops killed script m w x,
  crun e allow (cm_start hs) ops = Val m -> NoDup (names (l_ctrls l)) -> spawner e allow l killed script m = Val (w, x) ->
  x = Serving \/ (x = Exit0 /\ l_unload l = false /\ no_signal script) -> left_alone (w_log w) ->
  forall s, In s (l_ctrls l) -> is_up (w_cm w) s.
Proof. exact spawner_up. Qed.
Print Assumptions c82_everything_is_up.

(** Without a signal and without a group: when it gives up (exit code 1, an exception, or it hangs) at some controller, it has
    made no request about the controllers after that one. *)
Theorem c82_stops_at_the_first_failure : forall e allow hs l ops killed script m w x,
  crun e allow (cm_start hs) ops = Val m -> NoDup (names (l_ctrls l)) -> l_group l = false -> no_signal script ->
  spawner e allow l killed script m = Val (w, x) -> x <> Exit0 -> x <> Serving -> (l_unload l = true -> killed = false) ->
  exists before s after, l_ctrls l = before ++ s :: after /\
    forall f m1 o m2 s', In (Mine f m1 o m2) (w_log w) -> In s' after -> ~ touches o (s_name s').
Proof. exact spawner_stops. Qed.
Print Assumptions c82_stops_at_the_first_failure.

(** With --unload-on-kill, exit code 0 after a signal (it ends in no other way with 0) means: every controller that was not
    asked to stay inactive was loaded and has been unloaded by the spawner; it is gone, unless someone loaded it again since. *)
Theorem c82_exit0_means_unloaded : forall e allow hs l ops killed script m w,
  crun e allow (cm_start hs) ops = Val m -> NoDup (names (l_ctrls l)) -> l_unload l = true ->
  spawner e allow l killed script m = Val (w, Exit0) ->
  forall s, In s (l_ctrls l) -> s_inactive s = false ->
  exists later f m1 m2 earlier, w_log w = later ++ Mine f m1 (CUnload (s_name s)) m2 :: earlier /\
    loaded m1 (s_name s) /\ ~ loaded m2 (s_name s) /\ (not_reloaded later [s_name s] -> ~ loaded (w_cm w) (s_name s)).
Proof.
  intros e allow hs l ops killed script m w R ND U H s Is Na.
  destruct (spawner_gone e allow hs l ops killed script m w R ND U H s Is Na) as (later & f & m1 & m2 & earlier & E & A & B & R2 & T & M).
  exists later, f, m1, m2, earlier. split; [exact E|]. split; [exact A|]. split; [exact B|]. intros NR.
  refine (proj1 (tells_gone e allow hs (s_name s) later m2 (w_cm w) R2 T _ NR B)).
  intros g a c ok b I. destruct (M _ _ _ _ I) as [X|[(n & _ & X)|[X|X]]]; discriminate.
Qed.
Print Assumptions c82_exit0_means_unloaded.

(** The spawner unloads something only after a request to stop all its controllers that was made when all of them,
    including those that were only to be loaded, were active. *)
Theorem c82_unloads_only_if_all_ran : forall e allow hs l ops killed script m w x,
  crun e allow (cm_start hs) ops = Val m -> NoDup (names (l_ctrls l)) -> spawner e allow l killed script m = Val (w, x) ->
  forall f m1 n m2, In (Mine f m1 (CUnload n) m2) (w_log w) ->
  exists f' m3 m4, In (Mine f' m3 (CRequest [] (to_stop l) true (l_asap l)) m4) (w_log w) /\
    forall s, In s (l_ctrls l) -> s_inactive s = false -> state_in m3 (s_name s) = Some Active.
Proof.
  intros e allow hs l ops killed script m w x R ND H f m1 n m2 I.
  destruct (spawner_unloads e allow hs l ops killed script m w x R ND H f m1 n m2 I) as (f' & m3 & m4 & I' & A). exists f', m3, m4. split; [exact I'|].
  intros s Is Na. apply A. unfold to_stop. apply in_map, filter_In. rewrite Na. auto.
Qed.
Print Assumptions c82_unloads_only_if_all_ran.

(** Everything the spawner asks of the controller manager is of this kind, and the log it is told in is what really happened. *)
Theorem c82_asks_nothing_else : forall e allow hs l ops killed script m w x,
  crun e allow (cm_start hs) ops = Val m -> NoDup (names (l_ctrls l)) -> spawner e allow l killed script m = Val (w, x) ->
  tells e allow (w_log w) m (w_cm w) /\
  forall f m1 o m2, In (Mine f m1 o m2) (w_log w) ->
    (exists s, In s (l_ctrls l) /\ called_for l s o) \/ in_one_go l o \/ o = CRequest [] (to_stop l) true (l_asap l) \/ (exists n, In n (to_stop l) /\ o = CUnload n) \/ o = CTimeout \/ o = CEvaluate.
Proof.
  intros e allow hs l ops killed script m w x R ND H. destruct (spawner_log e allow hs l ops killed script m w x R ND H) as (A & B). split; [exact A|].
  intros f m1 o m2 I. destruct (B _ _ _ _ I) as [(s & Is & C)|[C|C]].
  - destruct C as [C|[C|C]]; eauto 8.
  - auto.
  - right. right. exact C.
Qed.
Print Assumptions c82_asks_nothing_else.

(** Exit code 1 has a reason: a request of it was refused, a service was not there, or parameters could not be set.  In
    particular a controller that is loaded already is no reason. *)
Theorem c82_gives_up_for_a_reason : forall e allow l killed script m w, spawner e allow l killed script m = Val (w, Exit1) ->
  (exists f m1 o m2 out, In (Mine f m1 o m2) (w_log w) /\ cstep e allow m1 o = Val (m2, out) /\ (out = CBool false \/ out = CSw SwError)) \/
  (exists k, In k script /\ k_there k = false) \/ (exists s, In s (l_ctrls l) /\ s_params s = false).
Proof. exact spawner_why. Qed.
Print Assumptions c82_gives_up_for_a_reason.

(** Concrete: the arm of the other examples, pid and adm (which commands pid). *)
Definition as_asked (c : ctrl) (load_only inactive : bool) : spec :=
  {| s_ctrl := c; s_good := true; s_params := true; s_order := []; s_load_only := load_only; s_inactive := inactive |}.
Definition a_line (ss : list spec) (group unload : bool) : line := {| l_ctrls := ss; l_group := group; l_asap := true; l_unload := unload |}.
Definition one (f : fate) : try := {| t_before := [CRead; CUpdate; CWrite]; t_fate := f; t_during := [CRead; CPerform; CWrite]; t_done := true |}.
Definition easy : call := {| k_there := true; k_tries := [one Replied] |}.
Definition slow : call := {| k_there := true; k_tries := [one (Late true); one Replied] |}.
Definition kill : call := {| k_there := true; k_tries := [one (Signal false)] |}.
Definition m_up : cm := match crun env_ok true (cm_start plain) up_hw with Val m => m | Crash => cm_start plain end.
Definition runs (l : line) (killed : bool) (script : list call) : res (ending * list (name * lc)) :=
  do (w, x) <- spawner env_ok true l killed script m_up; Val (x, map (fun c => (c_name c, c_lc c)) (cm_ctrls (w_cm w))).

Fixpoint all_left_alone (log : list entry) : bool :=
  match log with
  | [] => true
  | Others fin m _ m' :: log' => forallb (fun n => match state_in m n, state_in m' n with
      | Some a, Some b => lc_eqb a b | None, None => true | _, _ => false end) fin && all_left_alone log'
  | Mine _ _ _ _ :: log' => all_left_alone log'
  end.
Lemma all_left_alone_ok log : all_left_alone log = true -> left_alone log.
Proof.
  induction log as [|x log IH]; intros H f m o m' I n Hn; [destruct I|]. destruct x as [g a q b|g a q b]; cbn in H.
  - destruct I as [I|I]; [discriminate|]. eapply IH; eassumption.
  - apply andb_true_iff in H. destruct H as (H & H'). destruct I as [I|I]; [|eapply IH; eassumption]. injection I as -> -> -> ->.
    rewrite forallb_forall in H. specialize (H n Hn). destruct (state_in m n) as [x|], (state_in m' n) as [y|]; try discriminate; [|reflexivity].
    destruct x, y; try discriminate; reflexivity.
Qed.
Definition both : list spec := [as_asked pid false false; as_asked adm false false].
(** computing without writing the whole run down *)
Definition ends_as (r : res (world * ending)) (x : ending) (check : world -> bool) : bool :=
  match r with
  | Val (w, y) => match x, y with Exit0, Exit0 | Exit1, Exit1 | Raised, Raised | Waiting, Waiting | Serving, Serving => check w | _, _ => false end
  | Crash => false
  end.
Lemma ends_as_ok r x check : ends_as r x check = true -> exists w, r = Val (w, x) /\ check w = true.
Proof. destruct r as [(w & y)|]; [|discriminate]. intros H. exists w. destruct x, y; try discriminate; auto. Qed.
Definition in_state (n : name) (x : lc) (w : world) : bool := match state_in (w_cm w) n with Some y => lc_eqb x y | None => false end.
Lemma in_state_ok n x w : in_state n x w = true -> state_in (w_cm w) n = Some x.
Proof. unfold in_state. destruct (state_in (w_cm w) n) as [y|]; [|discriminate]. destruct x, y; intros; try discriminate; reflexivity. Qed.
Lemma m_up_is : crun env_ok true (cm_start plain) up_hw = Val m_up.
Proof. assert (exists m, crun env_ok true (cm_start plain) up_hw = Val m) as (m & E) by (eexists; vm_compute; reflexivity). unfold m_up. rewrite E. reflexivity. Qed.
Lemma easy_quiet n : no_signal (repeat easy n).
Proof. intros k t I J. apply repeat_spec in I. subst k. destruct J as [<-|[]]. reflexivity. Qed.

Example c82_example : exists w, crun env_ok true (cm_start plain) up_hw = Val m_up /\
  spawner env_ok true (a_line both false false) false (repeat easy 8) m_up = Val (w, Exit0) /\
  left_alone (w_log w) /\ length (w_log w) > 10 /\ no_signal (repeat easy 8) /\ NoDup (names both) /\
  state_in (w_cm w) "pid" = Some Active /\ state_in (w_cm w) "adm" = Some Active.
Proof.
  destruct (ends_as_ok (spawner env_ok true (a_line both false false) false (repeat easy 8) m_up) Exit0
    (fun w => all_left_alone (w_log w) && (10 <? length (w_log w)) && in_state "pid" Active w && in_state "adm" Active w)%bool) as (w & E & C); [vm_compute; reflexivity|].
  repeat (apply andb_true_iff in C; let D := fresh "D" in destruct C as (C & D)). exists w.
  split; [exact m_up_is|]. split; [exact E|]. split; [apply all_left_alone_ok; assumption|]. split; [apply Nat.ltb_lt; assumption|].
  split; [apply easy_quiet|]. split; [repeat constructor; cbn; intuition discriminate|]. split; apply in_state_ok; assumption.
Qed.
Example c82_example_unload : runs (a_line both true true) true (repeat easy 20) = Val (Exit0, []) /\
  runs (a_line both true true) false (repeat easy 20) = Val (Serving, [("pid", Active); ("adm", Active)]).
Proof. split; vm_compute; reflexivity. Qed.
Example c82_example_failure : runs (a_line [as_asked pid false false; {| s_ctrl := adm; s_good := false; s_params := true; s_order := []; s_load_only := false; s_inactive := false |}; as_asked pos false true] false false) false (repeat easy 20) =
  Val (Exit1, [("pid", Active)]).
Proof. vm_compute. reflexivity. Qed.

(** "After a signal, --unload-on-kill stops and unloads the controllers" is false: if one of them was only to be loaded, the
    STRICT request to stop them all is rejected, and the others keep running. *)
Theorem c82_unload_on_kill_refuted : exists l, l_unload l = true /\ exists w,
  spawner env_ok true l true (repeat easy 20) m_up = Val (w, Exit1) /\
  (exists s, In s (l_ctrls l) /\ state_in (w_cm w) (s_name s) = Some Active) /\ forall s, In s (l_ctrls l) -> loaded (w_cm w) (s_name s).
Proof.
  set (l := a_line [as_asked pid false false; as_asked adm true false] false true). exists l. split; [reflexivity|].
  destruct (ends_as_ok (spawner env_ok true l true (repeat easy 20) m_up) Exit1 (fun w => in_state "pid" Active w && in_state "adm" Unconfigured w)%bool) as (w & E & C);
    [vm_compute; reflexivity|]. apply andb_true_iff in C. destruct C as (C & D). exists w. split; [exact E|].
  split; [exists (as_asked pid false false); split; [left; reflexivity|apply in_state_ok; exact C]|].
  intros s [<-|[<-|[]]]; apply state_loaded; eexists; apply in_state_ok; [exact C|exact D].
Qed.
Print Assumptions c82_unload_on_kill_refuted.
(** The same if the signal arrives before all of them run. *)
Theorem c82_early_signal_refuted : exists l script, l_unload l = true /\ (forall s, In s (l_ctrls l) -> s_load_only s = false /\ s_inactive s = false) /\ exists w,
  spawner env_ok true l false script m_up = Val (w, Exit1) /\ exists s, In s (l_ctrls l) /\ state_in (w_cm w) (s_name s) = Some Active.
Proof.
  exists (a_line both false true), (repeat easy 4 ++ [kill] ++ repeat easy 10). split; [reflexivity|]. split; [intros s [<-|[<-|[]]]; auto|].
  destruct (ends_as_ok (spawner env_ok true (a_line both false true) false (repeat easy 4 ++ [kill] ++ repeat easy 10) m_up) Exit1 (in_state "pid" Active)) as (w & E & C); [vm_compute; reflexivity|].
  exists w. split; [exact E|]. exists (as_asked pid false false). split; [left; reflexivity|apply in_state_ok; exact C].
Qed.
Print Assumptions c82_early_signal_refuted.
(** "Exit code 0 means that everything is up" is false when a signal arrived (without --unload-on-kill). *)
Theorem c82_exit0_refuted : exists l script w, l_unload l = false /\ spawner env_ok true l false script m_up = Val (w, Exit0) /\ left_alone (w_log w) /\
  exists s, In s (l_ctrls l) /\ ~ loaded (w_cm w) (s_name s).
Proof.
  exists (a_line both false false), (repeat easy 4 ++ [kill] ++ repeat easy 10).
  destruct (ends_as_ok (spawner env_ok true (a_line both false false) false (repeat easy 4 ++ [kill] ++ repeat easy 10) m_up) Exit0
    (fun w => all_left_alone (w_log w) && match state_in (w_cm w) "adm" with None => true | _ => false end)%bool) as (w & E & C); [vm_compute; reflexivity|].
  apply andb_true_iff in C. destruct C as (C & D). exists w. split; [reflexivity|]. split; [exact E|]. split; [apply all_left_alone_ok; exact C|].
  exists (as_asked adm false false). split; [right; left; reflexivity|].
  intros L. apply state_loaded in L. destruct L as (x & L). change (s_name (as_asked adm false false)) with "adm" in L. rewrite L in D. discriminate.
Qed.
Print Assumptions c82_exit0_refuted.
(** "Exit code 1 means that something is missing" is false: a request is repeated when its answer is late, and the second one
    finds the controller loaded already. *)
Theorem c82_exit1_refuted : exists l script w, no_signal script /\ spawner env_ok true l false script m_up = Val (w, Exit1) /\
  forall s, In s (l_ctrls l) -> is_up (w_cm w) s.
Proof.
  set (l := a_line [as_asked pid true false] false false). exists l, ([easy; slow] ++ repeat easy 4).
  destruct (ends_as_ok (spawner env_ok true l false ([easy; slow] ++ repeat easy 4) m_up) Exit1 (in_state "pid" Unconfigured)) as (w & E & C); [vm_compute; reflexivity|].
  exists w. split.
  { intros k t I J. destruct I as [<-|[<-|I]]; [| |apply repeat_spec in I; subst k].
    - destruct J as [<-|[]]; reflexivity.
    - destruct J as [<-|[<-|[]]]; reflexivity.
    - destruct J as [<-|[]]; reflexivity. }
  split; [exact E|]. intros s [<-|[]]. unfold is_up. cbn [asked_for as_asked s_load_only]. apply state_loaded. eexists. apply in_state_ok. exact C.
Qed.
Print Assumptions c82_exit1_refuted.
(** Running the same spawner again fails, although everything is and stays up: an active controller cannot be configured. *)
Theorem c82_again_refuted : exists l w w', spawner env_ok true l false (repeat easy 20) m_up = Val (w, Exit0) /\
  spawner env_ok true l false (repeat easy 20) (w_cm w) = Val (w', Exit1) /\
  forall s, In s (l_ctrls l) -> is_up (w_cm w) s /\ is_up (w_cm w') s.
Proof.
  set (l := a_line both false false). exists l.
  destruct (ends_as_ok (spawner env_ok true l false (repeat easy 20) m_up) Exit0
    (fun w => in_state "pid" Active w && in_state "adm" Active w &&
       ends_as (spawner env_ok true l false (repeat easy 20) (w_cm w)) Exit1 (fun w' => in_state "pid" Active w' && in_state "adm" Active w'))%bool) as (w & E & C); [vm_compute; reflexivity|].
  apply andb_true_iff in C. destruct C as (C & D). apply andb_true_iff in C. destruct C as (C & C').
  destruct (ends_as_ok _ _ _ D) as (w' & E' & F). apply andb_true_iff in F. destruct F as (F & F').
  exists w, w'. split; [exact E|]. split; [exact E'|]. intros s [<-|[<-|[]]]; split; apply in_state_ok; assumption.
Qed.
Print Assumptions c82_again_refuted.
