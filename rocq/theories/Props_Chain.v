(** Props_Chain.v -- C19, C20, C21: execution order and chain groups.
    [hs] are the hardware components, [e] the behaviour of all user code (any function of the
    history), [ops] any history of the manager, [order] any iteration order of the hash map. *)
From Coq Require Import Permutation.
From Verif Require Import Base Events HwModel RmModel RmSys RmSpec RmWitness ChainModel ChainProofs
  CmModel CmPrim ChainSpec CmTopo ChainMain CmWitness.
Open Scope string_scope.
Open Scope list_scope.

(** C19, for tree-like topologies (no two controllers linked in two different ways): after a
    successful configure every controller whose output another one uses runs before it. *)
Theorem c19_order_follows_chain_partial : forall e allow hs ops m n order m',
  crun e allow (cm_start hs) ops = Val m -> configure_controller e m n order = Val (m', true) ->
  tree_like (data_flow m') ->
  forall a b, data_flow m' a b -> comes_before a b (map c_name (cm_ctrls m')).
Proof. exact main_order. Qed.
Print Assumptions c19_order_follows_chain_partial.

Definition chain3 : list ctrl :=
  [ ctl "pid" true ["a/position"] [] ["pid/ref"] ["pid/est"] [];
    ctl "mon" false [] ["pid/est"] [] [] [];
    ctl "adm" true ["pid/ref"] [] ["adm/ref"] [] [];
    ctl "plan" false ["adm/ref"] [] [] [] [] ].
Lemma chain3_flow m : crun env_ok true (cm_start plain) (load_conf chain3) = Val m ->
  forall a b, data_flow m a b <-> In (a, b) [("plan", "adm"); ("adm", "pid"); ("pid", "mon")].
Proof.
  intros H. vm_compute in H. injection H as <-. intros a b. split.
  - intros [(c & Hc & <- & _ & Hb & k & Hk & E)|(c & Hc & <- & _ & Hb & k & Hk & E)];
      cbn [cm_ctrls] in Hc; destruct Hc as [<-|[<-|[<-|[<-|[]]]]]; vm_compute in Hk;
      repeat (destruct Hk as [<-|Hk]); try contradiction; vm_compute in E; injection E as <-;
      vm_compute in Hb; try (simpl; tauto);
      repeat (destruct Hb as [Hb|Hb]; [discriminate|]); destruct Hb.
  - intros [[= <- <-]|[[= <- <-]|[[= <- <-]|[]]]]; [left|left|right];
      (eexists; split; [cbn [cm_ctrls]|]).
    1: left; reflexivity.
    2: right; left; reflexivity.
    3: right; right; right; left; reflexivity.
    all: split; [reflexivity|]; split; [discriminate|]; split; [vm_compute; tauto|]; eexists; split; [left; reflexivity|reflexivity].
Qed.
Lemma path_out (R : name -> name -> Prop) (P : name -> Prop) (S : name -> Prop) a b :
  (forall x y, S x -> touching R x y -> P y -> S y) -> S a -> path_in R P a b -> S b.
Proof. intros H Ha W. induction W; [exact Ha|]. eapply H; [apply IHW|eassumption|assumption]. Qed.

Example c19_example : exists m,
  crun env_ok true (cm_start plain) (load_conf chain3) = Val m /\
  tree_like (data_flow m) /\ data_flow m "adm" "pid" /\ data_flow m "pid" "mon" /\
  map c_name (cm_ctrls m) = ["plan"; "adm"; "pid"; "mon"].
Proof.
  destruct (crun env_ok true (cm_start plain) (load_conf chain3)) as [m|] eqn:H; [|vm_compute in H; discriminate].
  exists m. pose proof (chain3_flow m H) as F. split; [reflexivity|]. split; [|split; [|split]].
  - assert (T : forall a b, touching (data_flow m) a b -> In (a, b)
       [("plan","adm");("adm","plan");("adm","pid");("pid","adm");("pid","mon");("mon","pid")]).
    { intros a b [D|D]; apply F in D; destruct D as [[= <- <-]|[[= <- <-]|[[= <- <-]|[]]]]; simpl; tauto. }
    assert (T' : forall a b, touching (data_flow m) a b -> 
       (a = "plan" /\ b = "adm") \/ (a = "adm" /\ b = "plan") \/ (a = "adm" /\ b = "pid") \/
       (a = "pid" /\ b = "adm") \/ (a = "pid" /\ b = "mon") \/ (a = "mon" /\ b = "pid")).
    { intros a b D. apply T in D. repeat (destruct D as [D|D]; [injection D as <- <-; tauto|]). destruct D. }
    split; [|split].
    + intros a D. apply F in D. repeat (destruct D as [D|D]; [congruence|]). destruct D.
    + intros a b D1 D2. apply F in D1, D2.
      destruct D1 as [D1|[D1|[D1|[]]]]; injection D1 as <- <-; destruct D2 as [D2|[D2|[D2|[]]]]; discriminate.
    + intros c x y Hx Hy W. apply T' in Hx, Hy.
      assert (K : forall p q : name, p = q -> x = p -> y = q -> x = y) by congruence.
      assert (A : c = "adm" -> x = "plan" -> y = "plan").
      { intros -> ->. apply (path_out (data_flow m) (fun z => z <> "adm") (fun z => z = "plan") "plan"); [|reflexivity|exact W].
        intros u v -> D Hv. apply T' in D. intuition congruence. }
      assert (B : c = "adm" -> x = "pid" -> y = "pid" \/ y = "mon").
      { intros -> ->. apply (path_out (data_flow m) (fun z => z <> "adm") (fun z => z = "pid" \/ z = "mon") "pid"); [|left; reflexivity|exact W].
        intros u v Hu D Hv. apply T' in D. intuition congruence. }
      assert (C : c = "pid" -> x = "mon" -> y = "mon").
      { intros -> ->. apply (path_out (data_flow m) (fun z => z <> "pid") (fun z => z = "mon") "mon"); [|reflexivity|exact W].
        intros u v -> D Hv. apply T' in D. intuition congruence. }
      assert (D' : c = "pid" -> x = "adm" -> y = "adm" \/ y = "plan").
      { intros -> ->. apply (path_out (data_flow m) (fun z => z <> "pid") (fun z => z = "adm" \/ z = "plan") "adm"); [|left; reflexivity|exact W].
        intros u v Hu D Hv. apply T' in D. intuition congruence. }
      intuition congruence.
  - apply F. simpl; tauto.
  - apply F. simpl; tauto.
  - vm_compute in H. injection H as <-. reflexivity.
Qed.

(** C19 is false for acyclic topologies in general: P -> C -> F -> X and P -> X.  Every controller
    configures successfully, the data flow is acyclic, yet F runs before C, which writes F's
    references. *)
Theorem c19_order_follows_chain_refuted : exists hs ops m (rank : name -> nat),
  crun env_ok true (cm_start hs) ops = Val m /\
  (forall a b, data_flow m a b -> rank a < rank b) /\
  data_flow m "C" "F" /\ map c_name (cm_ctrls m) = ["F"; "P"; "C"; "X"].
Proof.
  exists plain, diamond_ops. eexists.
  exists (fun n => if String.eqb n "P" then 0 else if String.eqb n "C" then 1 else if String.eqb n "F" then 2 else 3).
  split; [vm_compute; reflexivity|]. split; [|split].
  - intros a b [(c & Hc & <- & _ & Hb & k & Hk & E)|(c & Hc & <- & _ & Hb & k & Hk & E)];
      cbn [cm_ctrls] in Hc; destruct Hc as [<-|[<-|[<-|[<-|[]]]]]; vm_compute in Hk;
      repeat (destruct Hk as [<-|Hk]); try contradiction; vm_compute in E; injection E as <-;
      vm_compute in Hb; try (vm_compute; repeat constructor; fail);
      repeat (destruct Hb as [Hb|Hb]; [discriminate|]); destruct Hb.
  - left. eexists. split; [cbn [cm_ctrls]; right; right; left; reflexivity|]. split; [reflexivity|].
    split; [discriminate|]. split; [vm_compute; tauto|]. exists "F/r". split; [left; reflexivity|reflexivity].
  - reflexivity.
Qed.
Print Assumptions c19_order_follows_chain_refuted.

(** C20: no operation loses or duplicates a controller: loading adds exactly the loaded one,
    unloading removes exactly the unloaded one, configuring permutes, everything else keeps the
    list as it is; the list never contains a name twice. *)
Theorem c20_controllers_kept_exactly_once : forall e allow hs ops m o m' out,
  crun e allow (cm_start hs) ops = Val m -> cstep e allow m o = Val (m', out) ->
  NoDup (map c_name (cm_ctrls m')) /\
  match o, out with
  | CLoad c _, CBool true => Permutation (map c_name (cm_ctrls m')) (c_name c :: map c_name (cm_ctrls m))
  | CUnload n, CBool true => Permutation (map c_name (cm_ctrls m)) (n :: map c_name (cm_ctrls m'))
  | CConfigure _ _, CBool true => Permutation (map c_name (cm_ctrls m')) (map c_name (cm_ctrls m))
  | _, _ => map c_name (cm_ctrls m') = map c_name (cm_ctrls m)
  end.
Proof. exact main_list. Qed.
Print Assumptions c20_controllers_kept_exactly_once.
Example c20_example : exists m m',
  crun env_ok true (cm_start plain) (load_conf [plan; adm] ++ [CLoad pid true]) = Val m /\
  cstep env_ok true m (CConfigure "pid" []) = Val (m', CBool true) /\
  names_of (Val m) = ["plan"; "adm"; "pid"] /\
  names_of (crun env_ok true (cm_start plain) (load_conf [dX; dF; dC])) = ["C"; "F"; "X"].
Proof. do 2 eexists. split; [vm_compute; reflexivity|]. split; [vm_compute; reflexivity|]. vm_compute. auto. Qed.

(** ... and the ordering procedure itself terminates with an answer on every graph of controllers,
    cyclic ones included, listing every controller once. *)
Theorem c20_ordering_total : forall s keys,
  incl keys (map fst s) -> exists l, order_all s keys [] = Some l /\ NoDup l /\ incl keys l.
Proof. exact main_order_total. Qed.
Print Assumptions c20_ordering_total.
Example c20_total_example :
  let s := [("A", {| following := ["B"]; preceding := ["B"] |}); ("B", {| following := ["A"]; preceding := ["A"] |})] in
  incl ["A"; "B"] (map fst s) /\ order_all s ["A"; "B"] [] = Some ["A"; "B"].
Proof. split; [apply incl_refl|]. vm_compute. reflexivity. Qed.

(** C21: after a successful configure the group of every controller is exactly the set of
    controllers connected with it through chained interfaces (any topology). *)
Theorem c21_group_is_connected_component : forall e allow hs ops m n order m',
  crun e allow (cm_start hs) ops = Val m -> configure_controller e m n order = Val (m', true) ->
  forall c, In c (cm_ctrls m') ->
    NoDup (c_group c) /\ forall x, In x (c_group c) <-> linked (data_flow m') (c_name c) x.
Proof. exact main_group. Qed.
Print Assumptions c21_group_is_connected_component.
Example c21_example : exists m c,
  crun env_ok true (cm_start plain) (load_conf (pos :: chain3)) = Val m /\
  find_ctrl m "mon" = Some c /\ c_group c = ["mon"; "pid"; "adm"; "plan"].
Proof. do 2 eexists. split; [vm_compute; reflexivity|]. split; [vm_compute; reflexivity|]. vm_compute. reflexivity. Qed.
(** ... and the computation of a group terminates on every graph. *)
Theorem c21_group_total : forall s n, known s n ->
  exists l, full_chain (spec_fuel s) s n [n] = Some l /\ NoDup l /\ forall m, In m l <-> conn s n m.
Proof. exact chain_group_spec. Qed.
Print Assumptions c21_group_total.
Example c21_total_example :
  let s := [("A", {| following := ["B"]; preceding := ["B"] |}); ("B", {| following := ["A"]; preceding := ["A"] |})] in
  known s "A" /\ full_chain (spec_fuel s) s "A" ["A"] = Some ["A"; "B"].
Proof. split; [eexists; reflexivity|]. vm_compute. reflexivity. Qed.
