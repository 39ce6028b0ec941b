(** CmPrim.v -- every operation of the controller manager decomposes into primitive steps; an
    invariant preserved by each primitive step holds in every reachable state. *)
From Verif Require Import Base Events HwModel RmModel ChainModel CmModel.

Definition set_stop (l : lc) (c : ctrl) : ctrl := upd_lc l (upd_loans [] [] c).
Definition set_run (cl sl : list name) (c : ctrl) : ctrl := upd_lc Active (upd_loans cl sl c).

(** [f] changes none of the constants of a controller and not its name. *)
Definition same_const (c c' : ctrl) : Prop :=
  c_name c' = c_name c /\ c_chainable c' = c_chainable c /\ c_cmd c' = c_cmd c /\
  c_state c' = c_state c /\ c_fallback c' = c_fallback c /\ c_refs c' = c_refs c /\ c_exps c' = c_exps c.
Definition keeps (f : ctrl -> ctrl) : Prop := forall c, same_const c (f c).

(** The kinds of primitive steps that some operations never perform. *)
Inductive pk := KList | KUp | KHw | KImport | KPend | KConf.
Definition any_kind (k : pk) : Prop := True.

Inductive prim (e : env) (allow : bool) (KS : pk -> Prop) : cm -> cm -> Prop :=
| p_emit m ev : (forall h, ~ match ev with
       EvHwCb h' _ _ | EvHwErr h' _ | EvRead h' _ | EvWrite h' _ | EvPrepare h' _ _ _ | EvPerform h' _ _ _ => h' = h
       | _ => False end) -> prim e allow KS m (emit m ev)
| p_read m : KS KHw -> prim e allow KS m (set_rm m (fst (rm_read e (cm_rm m))))
| p_write m : KS KHw -> prim e allow KS m (set_rm m (fst (rm_write e (cm_rm m))))
| p_sethw m h t : KS KHw -> prim e allow KS m (set_rm m (fst (set_component_state e (cm_rm m) h t)))
| p_prepare m a d : prim e allow KS m (set_rm m (fst (rm_prepare e allow (cm_rm m) a d)))
| p_perform m a d : prim e allow KS m (set_rm m (fst (rm_perform e allow (cm_rm m) a d)))
| p_refs_av m n r : make_refs_available (cm_rm m) n = Some r -> prim e allow KS m (set_rm m r)
| p_refs_un m n r : make_refs_unavailable (cm_rm m) n = Some r -> prim e allow KS m (set_rm m r)
| p_exps_av m n r : make_exps_available (cm_rm m) n = Some r -> prim e allow KS m (set_rm m r)
| p_exps_un m n r : make_exps_unavailable (cm_rm m) n = Some r -> prim e allow KS m (set_rm m r)
| p_cache m n ks : prim e allow KS m (set_rm m (cache_controller (cm_rm m) n ks))
| p_import_refs m n c : KS KImport -> find_ctrl m n = Some c -> c_chainable c = true ->
    snd (import_refs (cm_rm m) n (c_refs c)) = true ->
    prim e allow KS m (set_rm m (fst (import_refs (cm_rm m) n (c_refs c))))
| p_import_exps m n c : KS KImport -> find_ctrl m n = Some c -> c_chainable c = true ->
    prim e allow KS m (set_rm m (import_exps (cm_rm m) n (c_exps c)))
| p_remove m n c : KS KImport -> find_ctrl m n = Some c -> c_lc c <> Active -> c_chainable c = true ->
    prim e allow KS m (set_rm m (remove_refs (remove_exps (cm_rm m) n) n))
(* life cycle *)
| p_lc m n c l : find_ctrl m n = Some c -> c_lc c <> Active -> l <> Active ->
    (l = Inactive -> c_lc c = Inactive \/ KS KConf) ->
    prim e allow KS m (upd m n (upd_lc l))
| p_halt m n c l : find_ctrl m n = Some c ->
    (l = Active -> c_lc c = Active /\ exists t, e_ctrl e t n CDeactivate = CbFailure) ->
    (l = Inactive -> c_lc c = Inactive \/ c_lc c = Active) ->
    prim e allow KS m (upd (set_rm m (release_all (cm_rm m) (c_cloans c))) n (set_stop l))
| p_run m n c r1 cl : KS KUp -> find_ctrl m n = Some c ->
    claim_all (cm_rm m) (cmd_names (cm_rm m) c) [] = Val (r1, Some cl) ->
    forallb (claim_state r1) (state_names r1 c) = true ->
    c_lc c = Inactive -> (exists t, e_ctrl e t n CActivate = CbSuccess) ->
    prim e allow KS m (upd (set_rm m (release_all r1 (c_cloans c))) n (set_run cl (state_names r1 c)))
| p_rerun m n c r1 cl : KS KUp -> find_ctrl m n = Some c ->
    claim_all (cm_rm m) (cmd_names (cm_rm m) c) [] = Val (r1, Some cl) ->
    forallb (claim_state r1) (state_names r1 c) = true -> c_lc c = Active ->
    prim e allow KS m (upd (set_rm m (release_all r1 (c_cloans c))) n (upd_loans cl (state_names r1 c)))
| p_run_fail m n c r1 cl l : find_ctrl m n = Some c ->
    claim_all (cm_rm m) (cmd_names (cm_rm m) c) [] = Val (r1, Some cl) -> 
    c_lc c <> Active -> l <> Active -> (l = Inactive -> c_lc c = Inactive) ->
    prim e allow KS m (upd (set_rm m (release_all (release_all r1 (c_cloans c)) cl)) n (set_stop l))
| p_run_skip m n c r1 cl : find_ctrl m n = Some c ->
    claim_all (cm_rm m) (cmd_names (cm_rm m) c) [] = Val (r1, Some cl) -> c_lc c <> Active ->
    prim e allow KS m (upd (set_rm m (release_all (release_all r1 (c_cloans c)) cl)) n (upd_loans [] []))
| p_claim_fail m n c r1 : find_ctrl m n = Some c ->
    claim_all (cm_rm m) (cmd_names (cm_rm m) c) [] = Val (r1, None) -> prim e allow KS m (set_rm m r1)
| p_claim_back m n c r1 cl : find_ctrl m n = Some c ->
    claim_all (cm_rm m) (cmd_names (cm_rm m) c) [] = Val (r1, Some cl) ->
    prim e allow KS m (set_rm m (release_all r1 cl))
| p_chained m n b : prim e allow KS m (upd m n (upd_chained b))
(* list and book-keeping *)
| p_load m c : KS KList -> find_ctrl m (c_name c) = None ->
    prim e allow KS m (set_topo (set_ctrls m (cm_ctrls m ++ [fresh c]))
                  (aset (cm_spec m) (c_name c) no_links)
                  (aset (cm_refc m) (c_name c) []) (aset (cm_stc m) (c_name c) []))
| p_unload m n c : KS KList -> find_ctrl m n = Some c -> c_lc c <> Active -> c_cloans c = [] ->
    prim e allow KS m (set_ctrls (set_topo m (spec_cleanup (cm_spec m) n) (cm_refc m) (cm_stc m))
        (filter (fun c => negb (String.eqb (c_name c) n)) (cm_ctrls m)))
| p_topo m m' order m'' : KS KList -> build_topology m = Val m' -> reorder m' order = Val m'' -> prim e allow KS m m''
| p_pend m p : KS KPend -> prim e allow KS m (set_pend m p)
| p_info m : KS KPend -> prim e allow KS m (set_ctrls m (map (refresh_claimed (cm_rm m)) (cm_ctrls m))).

Inductive steps (e : env) (allow : bool) (KS : pk -> Prop) (m : cm) : cm -> Prop :=
| s_refl : steps e allow KS m m
| s_one m' m'' : steps e allow KS m m' -> prim e allow KS m' m'' -> steps e allow KS m m''.

Lemma steps_trans e allow KS a b c : steps e allow KS a b -> steps e allow KS b c -> steps e allow KS a c.
Proof. intros H1 H2. induction H2; [exact H1|]. eapply s_one; eauto. Qed.
Lemma steps_prim e allow KS a b : prim e allow KS a b -> steps e allow KS a b.
Proof. intros H. eapply s_one; [apply s_refl|exact H]. Qed.
Lemma steps_inv e allow KS (P : cm -> Prop) : (forall a b, P a -> prim e allow KS a b -> P b) ->
  forall a b, P a -> steps e allow KS a b -> P b.
Proof. intros H a b Ha S. induction S; [exact Ha|]. eapply H; [exact IHS|eassumption]. Qed.

(** ---------------------------------------------------------------- list lemmas *)
Lemma find_in_name l n c : find_in l n = Some c -> c_name c = n.
Proof. intros H. apply find_some in H. destruct H as [_ H]. apply String.eqb_eq. exact H. Qed.
Lemma find_in_In l n c : find_in l n = Some c -> In c l.
Proof. intros H. apply find_some in H. exact (proj1 H). Qed.
Lemma find_in_none l n : find_in l n = None <-> ~ In n (map c_name l).
Proof.
  unfold find_in. induction l as [|c l IH]; simpl; [tauto|].
  destruct (String.eqb_spec (c_name c) n) as [->|Hn].
  - split; [discriminate|]. intros H. exfalso. apply H. left. reflexivity.
  - rewrite IH. intuition.
Qed.
Lemma find_upd l n f k : (forall c, c_name (f c) = c_name c) ->
  find_in (upd_in l n f) k = match find_in l k with
                             | Some c => Some (if String.eqb k n then f c else c) | None => None end.
Proof.
  intros Hf. unfold find_in, upd_in. induction l as [|c l IH]; simpl; [reflexivity|].
  assert (E : c_name (if String.eqb (c_name c) n then f c else c) = c_name c)
    by (destruct (String.eqb (c_name c) n); [apply Hf|reflexivity]).
  rewrite E. destruct (String.eqb_spec (c_name c) k) as [<-|Hk]; [reflexivity|exact IH].
Qed.
Lemma upd_upd l n f g : (forall c, c_name (f c) = c_name c) ->
  upd_in (upd_in l n f) n g = upd_in l n (fun c => g (f c)).
Proof.
  intros Hf. unfold upd_in. rewrite map_map. apply map_ext. intros c.
  destruct (String.eqb (c_name c) n) eqn:E; [rewrite Hf, E|rewrite E]; reflexivity.
Qed.
Lemma upd_in_ext l n f g : (forall c, In c l -> c_name c = n -> f c = g c) -> upd_in l n f = upd_in l n g.
Proof.
  intros H. unfold upd_in. apply map_ext_in. intros c Hc.
  destruct (String.eqb_spec (c_name c) n) as [E|]; [apply H; assumption|reflexivity].
Qed.
Lemma map_upd_names l n f : (forall c, c_name (f c) = c_name c) -> map c_name (upd_in l n f) = map c_name l.
Proof.
  intros Hf. unfold upd_in. rewrite map_map. apply map_ext. intros c.
  destruct (String.eqb _ _); [apply Hf|reflexivity].
Qed.
Lemma In_upd l n f c : In c (upd_in l n f) ->
  (In c l /\ c_name c <> n) \/ exists c0, In c0 l /\ c_name c0 = n /\ c = f c0.
Proof.
  unfold upd_in. rewrite in_map_iff. intros (x & E & Hx).
  destruct (String.eqb_spec (c_name x) n) as [H|H]; [right; exists x; auto|left; subst; auto].
Qed.
Lemma NoDup_find l c : NoDup (map c_name l) -> In c l -> find_in l (c_name c) = Some c.
Proof.
  unfold find_in. induction l as [|x l IH]; simpl; [tauto|]. intros H [->|Hc].
  - rewrite String.eqb_refl. reflexivity.
  - inversion H as [|? ? Hx Hl]; subst. destruct (String.eqb_spec (c_name x) (c_name c)) as [E|E].
    + exfalso. apply Hx. rewrite E. apply in_map. exact Hc.
    + apply IH; assumption.
Qed.

Lemma same_refl c : same_const c c. Proof. repeat split. Qed.
Lemma find_upd_same m n f k c : (forall c, c_name (f c) = c_name c) -> find_ctrl m k = Some c ->
  find_ctrl (upd m n f) k = Some (if String.eqb k n then f c else c).
Proof. intros Hf H. unfold find_ctrl. simpl. rewrite find_upd by exact Hf. unfold find_ctrl in H. rewrite H. reflexivity. Qed.

Lemma release_one m n c : find_ctrl m n = Some c ->
  release_itfs m n = upd (set_rm m (release_all (cm_rm m) (c_cloans c))) n (upd_loans [] []).
Proof. intros H. unfold release_itfs. rewrite H. reflexivity. Qed.

Lemma release_trace ks : forall r t, release_all (with_trace r t) ks = with_trace (release_all r ks) t.
Proof. unfold release_all. induction ks as [|k ks IH]; intros r t; simpl; [reflexivity|]. rewrite <- IH. reflexivity. Qed.
Lemma release_keeps_trace ks : forall r, rm_trace (release_all r ks) = rm_trace r.
Proof. unfold release_all. induction ks as [|k ks IH]; intros r; simpl; [reflexivity|]. rewrite IH. reflexivity. Qed.

(** ---------------------------------------------------------------- decomposition *)
Section Decompose.
Variables (e : env) (allow : bool) (KS : pk -> Prop).
Hypotheses (ku : KS KUp) (kh : KS KHw) (kl : KS KList) (ki : KS KImport) (kp : KS KPend) (kc : KS KConf).
Notation st := (steps e allow KS).
Local Ltac pr := apply steps_prim.
Local Ltac em := apply p_emit; intros h []; fail.

Lemma emit_step m ev : (match ev with EvOp | EvCtrlCb _ _ _ | EvCtrlErr _ _ | EvUpdate _ _ | EvChained _ _ _ => true | _ => false end = true) -> st m (emit m ev).
Proof. intros H. pr. apply p_emit. destruct ev; try discriminate; intros h []. Qed.

Lemma find_emit m ev n : find_ctrl (emit m ev) n = find_ctrl m n. Proof. reflexivity. Qed.
Lemma find_set_rm m r n : find_ctrl (set_rm m r) n = find_ctrl m n. Proof. reflexivity. Qed.

(** releasing and setting the state, in either order *)
Lemma stop_lc_release m n c l : find_ctrl m n = Some c ->
  release_itfs (upd m n (upd_lc l)) n = upd (set_rm m (release_all (cm_rm m) (c_cloans c))) n (set_stop l).
Proof.
  intros H. rewrite (release_one _ n (upd_lc l c)).
  - unfold upd, set_rm, set_ctrls. simpl. rewrite upd_upd by reflexivity. reflexivity.
  - rewrite (find_upd_same _ _ _ _ c) by (try reflexivity; exact H). rewrite String.eqb_refl. reflexivity.
Qed.
Lemma stop_release_lc m n c l : find_ctrl m n = Some c ->
  upd (release_itfs m n) n (upd_lc l) = upd (set_rm m (release_all (cm_rm m) (c_cloans c))) n (set_stop l).
Proof.
  intros H. rewrite (release_one m n c H). unfold upd, set_rm, set_ctrls. simpl.
  rewrite upd_upd by reflexivity. reflexivity.
Qed.
(** a second release changes nothing *)
Lemma stop_again m n c l r : find_ctrl m n = Some c ->
  release_itfs (upd (set_rm m r) n (set_stop l)) n = upd (set_rm m r) n (set_stop l).
Proof.
  intros H. rewrite (release_one _ n (set_stop l c)).
  - unfold upd, set_rm, set_ctrls. simpl. rewrite upd_upd by reflexivity. reflexivity.
  - rewrite (find_upd_same _ _ _ _ c) by (try reflexivity; exact H). rewrite String.eqb_refl. reflexivity.
Qed.

Lemma node_error_stop m n c : find_ctrl m n = Some c ->
  exists l ev, l <> Active /\ l <> Inactive /\
    (match ev with EvCtrlErr _ _ => true | _ => false end) = true /\
    node_error e m n = upd (set_rm (emit m ev) (release_all (cm_rm (emit m ev)) (c_cloans c))) n (set_stop l).
Proof.
  intros H. unfold node_error. set (ok := e_ctrl_error e _ n).
  exists (if ok then Unconfigured else Finalized), (EvCtrlErr n ok).
  split; [destruct ok; discriminate|]. split; [destruct ok; discriminate|]. split; [reflexivity|].
  rewrite (stop_release_lc (emit m (EvCtrlErr n ok)) n c) by exact H. reflexivity.
Qed.

Lemma find_after_stop m n c l r : find_ctrl m n = Some c ->
  find_ctrl (upd (set_rm m r) n (set_stop l)) n = Some (set_stop l c).
Proof. intros H. rewrite (find_upd_same _ _ _ _ c) by (try reflexivity; exact H). rewrite String.eqb_refl. reflexivity. Qed.

Lemma node_error_steps m n : st m (node_error e m n).
Proof.
  destruct (find_ctrl m n) as [c|] eqn:F.
  - destruct (node_error_stop m n c F) as (l & ev & Hl & Hl' & Hev & ->).
    eapply steps_trans; [apply (emit_step m ev); destruct ev; try discriminate; reflexivity|].
    pr. apply p_halt; [exact F| |]; intros ->; congruence.
  - unfold node_error. set (ok := e_ctrl_error e _ n).
    unfold release_itfs. rewrite find_emit, F.
    eapply steps_trans; [apply (emit_step m (EvCtrlErr n ok)); reflexivity|].
    assert (X : upd (emit m (EvCtrlErr n ok)) n (upd_lc (if ok then Unconfigured else Finalized)) = emit m (EvCtrlErr n ok)).
    { unfold upd. unfold find_ctrl in F. apply find_in_none in F.
      destruct m as [r l s a b p]. unfold emit, set_ctrls, set_rm. simpl in *. f_equal.
      unfold upd_in. rewrite <- (map_id l) at 2. apply map_ext_in. intros c Hc.
      destruct (String.eqb_spec (c_name c) n) as [<-|]; [|reflexivity].
      exfalso. apply F. apply in_map. exact Hc. }
    rewrite X. apply s_refl.
Qed.

(** node_configure, node_cleanup *)
Lemma node_passive_steps m n cb from succ fail :
  (forall l, from l = true -> l <> Active) -> succ <> Active -> fail <> Active ->
  (forall l, from l = true -> succ = Inactive -> l = Inactive \/ KS KConf) ->
  (forall l, from l = true -> fail = Inactive -> l = Inactive \/ KS KConf) ->
  st m (node_transition e m n cb from succ fail).
Proof.
  intros Hfrom Hs Hf Hs' Hf'. unfold node_transition. destruct (find_ctrl m n) as [c|] eqn:F; [|apply s_refl].
  destruct (from (c_lc c)) eqn:Hl; [|apply s_refl]. unfold ctrl_call.
  set (r := e_ctrl e _ n cb). eapply steps_trans; [apply (emit_step m (EvCtrlCb n cb r)); reflexivity|].
  destruct r; try apply node_error_steps; pr; apply (p_lc _ _ _ _ _ c);
    [exact F|apply Hfrom; exact Hl|exact Hs|apply Hs'; exact Hl|exact F|apply Hfrom; exact Hl|exact Hf|apply Hf'; exact Hl].
Qed.
Lemma lceq_na l0 : l0 <> Active -> forall l, lc_eqb l0 l = true -> l <> Active.
Proof. intros H l E. apply lc_eqb_eq in E. congruence. Qed.
Lemma node_configure_steps m n : st m (node_configure e m n).
Proof. apply node_passive_steps; try discriminate; [apply lceq_na; discriminate|]. intros l _ _. right. exact kc. Qed.
Lemma node_cleanup_steps m n : st m (node_cleanup e m n).
Proof.
  apply node_passive_steps; try discriminate; [apply lceq_na; discriminate|].
  intros l H _. left. apply lc_eqb_eq in H. congruence.
Qed.

Lemma node_shutdown_steps m n : st m (node_shutdown e m n).
Proof.
  unfold node_shutdown. destruct (find_ctrl m n) as [c|] eqn:F; [|apply s_refl].
  assert (G : st m (let '(r, m1) := ctrl_call e m n CShutdown in
          let m2 := release_itfs m1 n in
          match r with
          | CbSuccess | CbFailure => upd m2 n (upd_lc Finalized)
          | CbError | CbThrow => node_error e m2 n
          end)).
  { unfold ctrl_call. set (r := e_ctrl e _ n _).
    eapply steps_trans; [apply (emit_step m (EvCtrlCb n CShutdown r)); reflexivity|].
    set (m1 := emit m _). assert (F1 : find_ctrl m1 n = Some c) by exact F.
    assert (X : st m1 (node_error e (release_itfs m1 n) n)).
    { assert (F2 : find_ctrl (release_itfs m1 n) n = Some (upd_loans [] [] c)).
      { rewrite (release_one _ _ c) by exact F1. rewrite (find_upd_same _ _ _ _ c) by (try reflexivity; exact F1).
        rewrite String.eqb_refl. reflexivity. }
      destruct (node_error_stop _ _ _ F2) as (l & ev & Hl & Hl' & Hev & E). rewrite E. clear E.
      eapply steps_trans; [apply (emit_step m1 ev); destruct ev; try discriminate; reflexivity|].
      replace (upd _ n (set_stop l)) with (upd (set_rm (emit m1 ev) (release_all (cm_rm (emit m1 ev)) (c_cloans c))) n (set_stop l)).
      - pr. apply p_halt; [exact F1| |]; intros ->; congruence.
      - rewrite (release_one _ _ c) by exact F1. unfold emit, upd, set_rm, set_ctrls.
        cbn [cm_rm cm_ctrls cm_spec cm_refc cm_stc cm_pend upd_loans c_cloans].
        rewrite upd_upd by reflexivity. f_equal.
        rewrite release_trace, release_keeps_trace. reflexivity. }
    destruct r.
    - rewrite (stop_release_lc _ _ c) by exact F1. pr. apply p_halt; [exact F1|discriminate|discriminate].
    - rewrite (stop_release_lc _ _ c) by exact F1. pr. apply p_halt; [exact F1|discriminate|discriminate].
    - apply X.
    - apply X. }
  destruct (c_lc c); try apply s_refl; exact G.
Qed.

Lemma set_chained_steps m n b : st m (set_chained e m n b).
Proof.
  unfold set_chained. destruct (find_ctrl m n) as [c|]; [|apply s_refl].
  destruct (_ && _); [|apply s_refl]. set (ok := e_set_chained e _ n b).
  eapply steps_trans; [apply (emit_step m (EvChained n b ok)); reflexivity|].
  destruct ok; [pr; apply p_chained|apply s_refl].
Qed.

(** deactivation of an active controller: release and new state *)
Lemma deactivate_node m n c : find_ctrl m n = Some c -> c_lc c = Active ->
  exists l m1, st m m1 /\ find_ctrl m1 n = Some c /\ cm_ctrls m1 = cm_ctrls m /\
    (l = Active -> exists t, e_ctrl e t n CDeactivate = CbFailure) /\
    release_itfs (node_deactivate e m n) n =
    upd (set_rm m1 (release_all (cm_rm m1) (c_cloans c))) n (set_stop l).
Proof.
  intros F L. unfold node_deactivate, node_transition. rewrite F, L. simpl. unfold ctrl_call.
  set (r := e_ctrl e _ n CDeactivate). set (m1 := emit m _).
  assert (F1 : find_ctrl m1 n = Some c) by exact F.
  assert (S1 : st m m1) by (apply (emit_step m (EvCtrlCb n CDeactivate r)); reflexivity).
  destruct r eqn:R.
  - exists Inactive, m1. split; [exact S1|]. split; [exact F1|]. split; [reflexivity|]. split; [discriminate|].
    apply stop_lc_release. exact F1.
  - exists Active, m1. split; [exact S1|]. split; [exact F1|]. split; [reflexivity|].
    split; [intros _; exists (rm_trace (cm_rm m)); exact R|].
    apply stop_lc_release. exact F1.
  - destruct (node_error_stop m1 n c F1) as (l & ev & Hl & Hl' & Hev & ->).
    exists l, (emit m1 ev). split; [eapply steps_trans; [exact S1|apply emit_step; destruct ev; try discriminate; reflexivity]|].
    split; [exact F1|]. split; [reflexivity|]. split; [congruence|]. apply (stop_again (emit m1 ev) n c). exact F1.
  - destruct (node_error_stop m1 n c F1) as (l & ev & Hl & Hl' & Hev & ->).
    exists l, (emit m1 ev). split; [eapply steps_trans; [exact S1|apply emit_step; destruct ev; try discriminate; reflexivity]|].
    split; [exact F1|]. split; [reflexivity|]. split; [congruence|]. apply (stop_again (emit m1 ev) n c). exact F1.
Qed.

Lemma deactivate_one_steps m n : st m (deactivate_one e m n).
Proof.
  unfold deactivate_one. destruct (find_ctrl m n) as [c|] eqn:F; [|apply s_refl].
  destruct (is_lc Active c) eqn:L; [|apply s_refl]. unfold is_lc in L. apply lc_eqb_eq in L.
  destruct (deactivate_node m n c F L) as (l & m1 & S1 & F1 & _ & Hl & E). cbv zeta. rewrite E. clear E.
  set (m2 := upd _ n (set_stop l)).
  assert (S2 : st m m2).
  { eapply steps_trans; [exact S1|]. pr. apply p_halt; [exact F1| |intros _; right; exact L]. intros X. split; [exact L|apply Hl; exact X]. }
  destruct (c_chainable c); [|exact S2].
  assert (S3 : st m (set_chained e m2 n false)) by (eapply steps_trans; [exact S2|apply set_chained_steps]).
  destruct (make_exps_unavailable _ n) as [r3|] eqn:E3; [|exact S3].
  assert (S4 : st m (set_rm (set_chained e m2 n false) r3)).
  { eapply s_one; [exact S3|]. eapply p_exps_un; exact E3. }
  destruct (make_refs_unavailable r3 n) as [r4|] eqn:E4; [|exact S4].
  eapply s_one; [exact S4|]. change (set_rm (set_chained e m2 n false) r4) with (set_rm (set_rm (set_chained e m2 n false) r3) r4).
  eapply p_refs_un. exact E4.
Qed.
Lemma deactivate_steps ns : forall m, st m (deactivate_controllers e m ns).
Proof.
  unfold deactivate_controllers. induction ns as [|n ns IH]; intros m; simpl; [apply s_refl|].
  eapply steps_trans; [apply deactivate_one_steps|apply IH].
Qed.

Lemma bind_val {A B} (x : res A) (f : A -> res B) b : bind x f = Val b -> exists a, x = Val a /\ f a = Val b.
Proof. destruct x; simpl; [eauto|discriminate]. Qed.
Lemma of_option_val {A} (o : option A) a : of_option o = Val a -> o = Some a.
Proof. destruct o; simpl; congruence. Qed.

Lemma exports_available_steps m n m' : exports_available m n = Val m' -> st m m'.
Proof.
  unfold exports_available. intros H. apply bind_val in H. destruct H as (r1 & H1 & H).
  apply bind_val in H. destruct H as (r2 & H2 & H). apply of_option_val in H1, H2. injection H as <-.
  eapply s_one; [pr; eapply p_exps_av; exact H1|].
  change (set_rm m r2) with (set_rm (set_rm m r1) r2). eapply p_refs_av. exact H2.
Qed.
Lemma exports_unavailable_steps m n m' : exports_unavailable m n = Val m' -> st m m'.
Proof.
  unfold exports_unavailable. intros H. apply bind_val in H. destruct H as (r1 & H1 & H).
  apply bind_val in H. destruct H as (r2 & H2 & H). apply of_option_val in H1, H2. injection H as <-.
  eapply s_one; [pr; eapply p_exps_un; exact H1|].
  change (set_rm m r2) with (set_rm (set_rm m r1) r2). eapply p_refs_un. exact H2.
Qed.


(** claiming commutes with the trace *)
Lemma claim_all_trace t : forall ks r got,
  claim_all (with_trace r t) ks got =
  match claim_all r ks got with Val (r1, o) => Val (with_trace r1 t, o) | Crash => Crash end.
Proof.
  induction ks as [|k ks IH]; intros r got; cbn [claim_all]; [reflexivity|].
  change (cmd_claimed (with_trace r t) k) with (cmd_claimed r k).
  destruct (cmd_claimed r k) as [[]|]; [rewrite release_trace; reflexivity| |reflexivity].
  unfold claim_cmd. change (cmd_available (with_trace r t) k) with (cmd_available r k).
  cbn [rm_claimed with_trace rm_ckeys].
  destruct (cmd_available r k); [|rewrite release_trace; reflexivity].
  destruct (aget (rm_claimed r) k) as [[]|]; try (rewrite release_trace; reflexivity).
  change (with_claimed (with_trace r t) (aset (rm_claimed r) k true))
    with (with_trace (with_claimed r (aset (rm_claimed r) k true)) t).
  destruct (mem k (rm_ckeys r)); [apply IH|rewrite release_trace; reflexivity].
Qed.
Lemma claim_all_keeps_trace : forall ks r got r1 o, claim_all r ks got = Val (r1, o) -> rm_trace r1 = rm_trace r.
Proof.
  induction ks as [|k ks IH]; intros r got r1 o; cbn [claim_all]; [intros [= <- <-]; reflexivity|].
  destruct (cmd_claimed r k) as [[]|]; [intros [= <- <-]; apply release_keeps_trace| |discriminate].
  unfold claim_cmd. destruct (cmd_available r k); [|intros [= <- <-]; apply release_keeps_trace].
  destruct (aget (rm_claimed r) k) as [[]|]; try (intros [= <- <-]; apply release_keeps_trace).
  destruct (mem k (rm_ckeys r)).
  - intros H. apply IH in H. exact H.
  - intros [= <- <-]. rewrite release_keeps_trace. reflexivity.
Qed.

Definition act_rm (x : act_state) : cm := fst (fst x).

Section Activate.
Variables (m : cm) (n : name) (c : ctrl) (r1 : rm) (cl sl : list name).
Hypothesis F : find_ctrl m n = Some c.
Hypothesis HC : claim_all (cm_rm m) (cmd_names (cm_rm m) c) [] = Val (r1, Some cl).
Hypothesis HS : forallb (claim_state r1) (state_names r1 c) = true.
Hypothesis ESL : sl = state_names r1 c.
Let R := release_all r1 (c_cloans c).
Let M t := set_rm m (with_trace (cm_rm m) t).
Let M1 t := upd (set_rm m (with_trace R t)) n (upd_loans cl sl).

Lemma act_find t : find_ctrl (M1 t) n = Some (upd_loans cl sl c).
Proof. unfold M1. rewrite (find_upd_same _ _ _ _ c) by (try reflexivity; exact F). rewrite String.eqb_refl. reflexivity. Qed.
Lemma act_claims t : claim_all (cm_rm (M t)) (cmd_names (cm_rm (M t)) c) [] = Val (with_trace r1 t, Some cl).
Proof. unfold M. cbn [set_rm cm_rm]. rewrite claim_all_trace. change (cmd_names (with_trace (cm_rm m) t) c) with (cmd_names (cm_rm m) c). rewrite HC. reflexivity. Qed.

Lemma act_success t : c_lc c = Inactive -> (exists t, e_ctrl e t n CActivate = CbSuccess) ->
  prim e allow KS (M t) (upd (M1 t) n (upd_lc Active)).
Proof.
  intros HL HX.
  replace (upd (M1 t) n (upd_lc Active)) with
    (upd (set_rm (M t) (release_all (with_trace r1 t) (c_cloans c))) n (set_run cl (state_names (with_trace r1 t) c))).
  - apply p_run; [exact ku|exact F|apply act_claims|exact HS|exact HL|exact HX].
  - unfold M1, M, upd, set_rm, set_ctrls, R. cbn [cm_rm cm_ctrls cm_spec cm_refc cm_stc cm_pend].
    rewrite upd_upd by reflexivity. rewrite release_trace. rewrite ESL. reflexivity.
Qed.
Lemma act_again t : c_lc c = Active -> prim e allow KS (M t) (M1 t).
Proof.
  intros HL. replace (M1 t) with
    (upd (set_rm (M t) (release_all (with_trace r1 t) (c_cloans c))) n (upd_loans cl (state_names (with_trace r1 t) c))).
  - apply p_rerun; [exact ku|exact F|apply act_claims|exact HS|exact HL].
  - unfold M1, M, upd, set_rm, set_ctrls, R. cbn [cm_rm cm_ctrls cm_spec cm_refc cm_stc cm_pend].
    rewrite release_trace. rewrite ESL. reflexivity.
Qed.
Lemma act_release t : release_itfs (M1 t) n =
  upd (set_rm (M t) (release_all (release_all (with_trace r1 t) (c_cloans c)) cl)) n (upd_loans [] []).
Proof.
  rewrite (release_one _ _ _ (act_find t)).
  unfold M1, M, upd, set_rm, set_ctrls, R. cbn [cm_rm cm_ctrls cm_spec cm_refc cm_stc cm_pend upd_loans c_cloans].
  rewrite upd_upd by reflexivity. rewrite !release_trace. reflexivity.
Qed.
Lemma act_skip t : c_lc c <> Active -> prim e allow KS (M t) (release_itfs (M1 t) n).
Proof. intros HL. rewrite act_release. apply (p_run_skip _ _ _ _ _ c); [exact F|apply act_claims|exact HL]. Qed.
Lemma act_fail2 t l : c_lc c <> Active -> l <> Active -> (l = Inactive -> c_lc c = Inactive) -> prim e allow KS (M t) (upd (release_itfs (M1 t) n) n (upd_lc l)).
Proof.
  intros HL Hl Hi. rewrite act_release.
  replace (upd (upd _ n (upd_loans [] [])) n (upd_lc l)) with
    (upd (set_rm (M t) (release_all (release_all (with_trace r1 t) (c_cloans c)) cl)) n (set_stop l)).
  - apply (p_run_fail _ _ _ _ _ c); [exact F|apply act_claims|exact HL|exact Hl|exact Hi].
  - unfold upd, set_rm, set_ctrls. cbn [cm_rm cm_ctrls cm_spec cm_refc cm_stc cm_pend].
    rewrite upd_upd by reflexivity. reflexivity.
Qed.
Lemma act_fail1 t l : c_lc c <> Active -> l <> Active -> (l = Inactive -> c_lc c = Inactive) -> prim e allow KS (M t) (release_itfs (upd (M1 t) n (upd_lc l)) n).
Proof.
  intros HL Hl Hi. rewrite (stop_lc_release _ _ _ _ (act_find t)).
  rewrite <- (stop_release_lc _ _ _ _ (act_find t)). apply act_fail2; assumption.
Qed.
Lemma act_fail3 t l : c_lc c <> Active -> l <> Active -> (l = Inactive -> c_lc c = Inactive) ->
  prim e allow KS (M t) (release_itfs (upd (release_itfs (M1 t) n) n (upd_lc l)) n).
Proof.
  intros HL Hl Hi. rewrite (stop_release_lc _ _ _ _ (act_find t)).
  change (set_rm (M1 t) (release_all (cm_rm (M1 t)) (c_cloans (upd_loans cl sl c)))) with
     (set_rm (M1 t) (release_all (cm_rm (M1 t)) (c_cloans (upd_loans cl sl c)))).
  rewrite (stop_again (M1 t) n _ l _ (act_find t)).
  rewrite <- (stop_release_lc _ _ _ _ (act_find t)). apply act_fail2; assumption.
Qed.
Lemma act_start : upd (set_rm m R) n (upd_loans cl sl) = M1 (rm_trace (cm_rm m)).
Proof.
  unfold M1, upd, set_rm, set_ctrls. cbn [cm_rm cm_ctrls cm_spec cm_refc cm_stc cm_pend]. f_equal.
  rewrite <- (claim_all_keeps_trace _ _ _ _ _ HC). rewrite <- (release_keeps_trace (c_cloans c) r1).
  fold R. destruct R; reflexivity.
Qed.
Lemma act_start0 : m = M (rm_trace (cm_rm m)).
Proof. unfold M. destruct m as [r l s a b p]. destruct r. reflexivity. Qed.

Lemma node_activate_shape : let m1 := upd (set_rm m R) n (upd_loans cl sl) in
  (exists c2, find_ctrl (node_activate e m1 n) n = Some c2 /\ c_lc c2 = Active /\ st m (node_activate e m1 n)) \/
  (exists c2, find_ctrl (node_activate e m1 n) n = Some c2 /\ c_lc c2 <> Active /\ st m (release_itfs (node_activate e m1 n) n)).
Proof.
  cbv zeta. rewrite act_start. set (t := rm_trace (cm_rm m)).
  assert (FF : forall t l, find_ctrl (upd (M1 t) n (upd_lc l)) n = Some (upd_lc l (upd_loans cl sl c))).
  { intros t0 l. rewrite (find_upd_same _ _ _ _ _ eq_refl (act_find t0)) || rewrite (find_upd_same _ _ _ _ (upd_loans cl sl c)) by (try reflexivity; apply act_find).
    rewrite String.eqb_refl. reflexivity. }
  assert (ST : forall ev, (match ev with EvOp | EvCtrlCb _ _ _ | EvCtrlErr _ _ | EvUpdate _ _ | EvChained _ _ _ => true | _ => false end = true) ->
     st m (M (ev :: t))).
  { intros ev Hev. exact (emit_step m ev Hev). }
  unfold node_activate, node_transition. rewrite (act_find t). cbn [c_lc upd_loans].
  destruct (c_lc c) eqn:L; cbn [lc_eqb].
  1,2,5: right; eexists; split; [apply act_find|]; split; [cbn [c_lc upd_loans]; rewrite L; discriminate|];
     pr; pose proof (act_skip t) as K; unfold t in K; rewrite <- act_start0 in K; apply K; rewrite L; discriminate.
  2:{ left. eexists. split; [apply act_find|]. split; [cbn [c_lc upd_loans]; exact L|].
      pr. pose proof (act_again t L) as K. unfold t in K. rewrite <- act_start0 in K. exact K. }
  unfold ctrl_call. set (r := e_ctrl e _ n CActivate). set (ev := EvCtrlCb n CActivate r).
  assert (EM : emit (M1 t) ev = M1 (ev :: t)) by reflexivity. rewrite EM.
  destruct r eqn:Er.
  - left. eexists. split; [apply FF|]. split; [reflexivity|].
    eapply s_one; [apply (ST ev); reflexivity|]. apply act_success; [exact L|]. eexists. exact Er.
  - right. eexists. split; [apply FF|]. split; [discriminate|].
    eapply s_one; [apply (ST ev); reflexivity|]. apply act_fail1; [rewrite L; discriminate|discriminate|intros _; exact L].
  - right. unfold node_error. set (ok := e_ctrl_error e _ n). set (l := if ok then Unconfigured else Finalized).
    assert (Hl : l <> Active) by (unfold l; destruct ok; discriminate).
    assert (EM2 : emit (M1 (ev :: t)) (EvCtrlErr n ok) = M1 (EvCtrlErr n ok :: ev :: t)) by reflexivity. rewrite EM2.
    eexists. split; [rewrite (stop_release_lc _ _ _ _ (act_find _)); apply (find_after_stop (M1 _)); apply act_find|].
    split; [exact Hl|].
    eapply s_one; [eapply steps_trans; [apply (ST ev); reflexivity|]; apply (emit_step (M (ev :: t)) (EvCtrlErr n ok)); reflexivity|].
    apply (act_fail3 (EvCtrlErr n ok :: ev :: t)); [rewrite L; discriminate|exact Hl|intros _; exact L].
  - right. unfold node_error. set (ok := e_ctrl_error e _ n). set (l := if ok then Unconfigured else Finalized).
    assert (Hl : l <> Active) by (unfold l; destruct ok; discriminate).
    assert (EM2 : emit (M1 (ev :: t)) (EvCtrlErr n ok) = M1 (EvCtrlErr n ok :: ev :: t)) by reflexivity. rewrite EM2.
    eexists. split; [rewrite (stop_release_lc _ _ _ _ (act_find _)); apply (find_after_stop (M1 _)); apply act_find|].
    split; [exact Hl|].
    eapply s_one; [eapply steps_trans; [apply (ST ev); reflexivity|]; apply (emit_step (M (ev :: t)) (EvCtrlErr n ok)); reflexivity|].
    apply (act_fail3 (EvCtrlErr n ok :: ev :: t)); [rewrite L; discriminate|exact Hl|intros _; exact L].
Qed.
End Activate.

Lemma activate_one_steps s n s' : activate_one e s n = Val s' -> st (act_rm s) (act_rm s').
Proof.
  destruct s as [[m ok] failed]. unfold activate_one. cbn [act_rm fst].
  destruct (find_ctrl m n) as [c|] eqn:F; [|intros [= <-]; apply s_refl].
  intros H. apply bind_val in H. destruct H as ([r1 loans] & HC & H).
  destruct loans as [cl|].
  2:{ injection H as <-. pr. eapply p_claim_fail; eassumption. }
  destruct (forallb (claim_state r1) (state_names r1 c)) eqn:HS.
  2:{ injection H as <-. pr. eapply p_claim_back; eassumption. }
  destruct (node_activate_shape m n c r1 cl (state_names r1 c) F HC HS eq_refl) as [(c2 & F2 & L2 & S)|(c2 & F2 & L2 & S)];
    cbv zeta in H, F2, S; rewrite F2 in H; unfold is_lc in H.
  - rewrite L2 in H. cbn [lc_eqb] in H. destruct (c_chainable c).
    + apply bind_val in H. destruct H as (m3 & H3 & H). injection H as <-. cbn [act_rm fst].
      eapply steps_trans; [exact S|]. eapply exports_available_steps. exact H3.
    + injection H as <-. exact S.
  - destruct (lc_eqb (c_lc c2) Active) eqn:EL; [apply lc_eqb_eq in EL; contradiction|].
    destruct (c_chainable c).
    + apply bind_val in H. destruct H as (m3 & H3 & H). injection H as <-. cbn [act_rm fst].
      eapply steps_trans; [exact S|]. eapply exports_unavailable_steps. exact H3.
    + injection H as <-. exact S.
Qed.

Lemma rfold_steps {A B} (f : A -> B -> res A) (p : A -> cm) :
  (forall a b a', f a b = Val a' -> st (p a) (p a')) ->
  forall l a a', rfold f l a = Val a' -> st (p a) (p a').
Proof.
  intros H. induction l as [|b l IH]; intros a a' E; cbn [rfold] in E; [injection E as <-; apply s_refl|].
  apply bind_val in E. destruct E as (a1 & E1 & E2). eapply steps_trans; [eapply H; exact E1|apply IH; exact E2].
Qed.

Lemma prep_perf_steps m a d : st m (prep_perf e allow m a d).
Proof.
  unfold prep_perf. pose proof (p_prepare e allow KS m a d) as K.
  destruct (rm_prepare e allow (cm_rm m) a d) as [r1 []]; cbn [fst] in K; [|apply steps_prim; exact K].
  eapply s_one; [apply steps_prim; exact K|].
  change (set_rm m (fst (rm_perform e allow r1 a d))) with
    (set_rm (set_rm m r1) (fst (rm_perform e allow (cm_rm (set_rm m r1)) a d))). apply p_perform.
Qed.

Lemma activate_steps m ns strict start m' : activate_controllers e allow m ns strict start = Val m' -> st m m'.
Proof.
  unfold activate_controllers. intros H. apply bind_val in H. destruct H as (m1 & H1 & H).
  apply bind_val in H. destruct H as ([[m2 ok] failed] & H2 & H).
  assert (S1 : st m m1).
  { eapply (rfold_steps preactivate (fun x => x)); [|exact H1]. intros a b a' E. unfold preactivate in E.
    destruct (find_ctrl a b) as [c|]; [|injection E as <-; apply s_refl].
    destruct (c_chainable c); [|injection E as <-; apply s_refl]. eapply exports_available_steps; exact E. }
  assert (S2 : st m1 m2).
  { apply (rfold_steps (activate_one e) act_rm) in H2; [exact H2|]. intros a b a'. apply activate_one_steps. }
  assert (S : st m m2) by (eapply steps_trans; eassumption).
  destruct (negb ok && strict).
  - injection H as <-. eapply steps_trans; [exact S|]. eapply steps_trans; [apply deactivate_steps|apply prep_perf_steps].
  - destruct failed; injection H as <-; [exact S|].
    eapply steps_trans; [exact S|apply prep_perf_steps].
Qed.

Lemma switch_chained_steps ns b : forall m, st m (switch_chained_mode e m ns b).
Proof.
  unfold switch_chained_mode. induction ns as [|n ns IH]; intros m; cbn [fold_left]; [apply s_refl|].
  eapply steps_trans; [|apply IH]. destruct (find_ctrl m n) as [c|]; [|apply s_refl].
  destruct (is_lc Active c); [apply s_refl|apply set_chained_steps].
Qed.

Lemma manage_switch_steps m p m' : manage_switch e allow m p = Val m' -> st m m'.
Proof.
  unfold manage_switch. pose proof (p_perform e allow KS m (p_start p) (p_stop p)) as K.
  destruct (rm_perform e allow (cm_rm m) (p_start p) (p_stop p)) as [r1 []]; cbn [fst negb] in *.
  - intros H. apply activate_steps in H. eapply steps_trans; [apply steps_prim; exact K|].
    eapply steps_trans; [|exact H]. eapply steps_trans; [apply deactivate_steps|].
    eapply steps_trans; apply switch_chained_steps.
  - intros [= <-]. apply steps_prim. exact K.
Qed.

(** ---- validation: only availability and the cache of used hardware change *)
Definition rmst (m : cm) (r r' : rm) : Prop := st (set_rm m r) (set_rm m r').
Lemma rmst_refl m r : rmst m r r. Proof. apply s_refl. Qed.
Lemma rmst_trans m a b c : rmst m a b -> rmst m b c -> rmst m a c. Proof. apply steps_trans. Qed.

Lemma propagate_rm l cs : forall w w', propagate l cs w = Val w' -> w_rm w' = w_rm w.
Proof.
  assert (G : forall ks w w', rfold (propagate_itf l) ks w = Val w' -> w_rm w' = w_rm w).
  { induction ks as [|k ks IH]; intros w w' H; cbn [rfold] in H; [congruence|].
    apply bind_val in H. destruct H as (w1 & H1 & H2). rewrite (IH _ _ H2).
    unfold propagate_itf in H1. apply bind_val in H1. destruct H1 as (f & _ & H1). injection H1 as <-.
    destruct f; reflexivity. }
  induction cs as [|c cs IH]; intros w w' H; cbn [propagate] in H; [congruence|].
  destruct (mem (c_name c) (w_deact w)); [|apply IH; exact H].
  destruct (is_lc Active c); [|congruence].
  apply bind_val in H. destruct H as (w1 & H1 & H2). rewrite (IH _ _ H2). eapply G. exact H1.
Qed.

Lemma follow_rm m l : forall fuel w c w' ok, check_following fuel l w c = Val (w', ok) -> rmst m (w_rm w) (w_rm w').
Proof.
  induction fuel as [|fu IH]; intros w c w' ok H; cbn [check_following] in H; [discriminate|].
  revert H. generalize (cmd_names (w_rm w) c ++ state_names (w_rm w) c).
  generalize (cmd_names (w_rm w) c) (state_names (w_rm w) c).
  intros cmds states ks. revert w w' ok.
  induction ks as [|k ks IHk]; intros w w' ok H; cbn [follow_loop] in H; [injection H as <- <-; apply rmst_refl|].
  apply bind_val in H. destruct H as ([w1 ok1] & H1 & H2).
  assert (S1 : rmst m (w_rm w) (w_rm w1)).
  { clear H2. unfold follow_itf in H1. apply bind_val in H1. destruct H1 as (fo & _ & H1).
    destruct fo as [f|]; [|injection H1 as <- <-; apply rmst_refl].
    destruct (negb (c_chainable f)); [injection H1 as <- <-; apply rmst_refl|].
    destruct (is_lc Active f && _); [injection H1 as <- <-; apply rmst_refl|].
    destruct (negb (is_lc Active f) && _); [injection H1 as <- <-; apply rmst_refl|].
    apply bind_val in H1. destruct H1 as ([w2 ok2] & H2 & H1). apply IH in H2.
    eapply rmst_trans; [exact H2|]. clear H2.
    destruct (negb ok2); [injection H1 as <- <-; apply rmst_refl|].
    destruct (negb (c_chained f)); [|injection H1 as <- <-; apply rmst_refl].
    destruct (mem (c_name f) (w_to w2)); [injection H1 as <- <-; apply rmst_refl|].
    apply bind_val in H1. destruct H1 as (r1 & A1 & H1). apply of_option_val in A1.
    assert (T1 : rmst m (w_rm w2) r1).
    { unfold rmst. change (set_rm m r1) with (set_rm (set_rm m (w_rm w2)) r1). pr. eapply p_exps_av. exact A1. }
    destruct (mem k cmds).
    - apply bind_val in H1. destruct H1 as (r2 & A2 & H1). apply of_option_val in A2. injection H1 as <- <-. cbn [sw_chain w_rm].
      eapply rmst_trans; [exact T1|]. unfold rmst.
      change (set_rm m r2) with (set_rm (set_rm m r1) r2). pr. eapply p_refs_av. exact A2.
    - injection H1 as <- <-. exact T1. }
  destruct ok1; [|injection H2 as <- <-; exact S1].
  eapply rmst_trans; [exact S1|]. eapply IHk. exact H2.
Qed.

Lemma check_activate_rm m l w n w' ok : check_activate l w n = Val (w', ok) -> rmst m (w_rm w) (w_rm w').
Proof.
  unfold check_activate. destruct (find_in l n) as [c|]; [|discriminate].
  intros H. apply bind_val in H. destruct H as ([w1 ok1] & H1 & H).
  assert (S1 : rmst m (w_rm w) (w_rm w1)).
  { destruct (c_lc c); try (injection H1 as <- <-; apply rmst_refl). eapply follow_rm. exact H1. }
  destruct ok1; [|injection H as <- <-; exact S1].
  apply bind_val in H. destruct H as (b & _ & H). injection H as <- <-. exact S1.
Qed.

Definition either (x : sw + sw) : sw := match x with inl w => w | inr w => w end.
Lemma act_loop_rm m l strict : forall rest kept w x, act_loop l strict kept rest w = Val x ->
  rmst m (w_rm w) (w_rm (either x)).
Proof.
  induction rest as [|n rest IH]; intros kept w x H; cbn [act_loop] in H; [injection H as <-; apply rmst_refl|].
  apply bind_val in H. destruct H as ([w1 ok] & H1 & H). apply (check_activate_rm m) in H1.
  eapply rmst_trans; [exact H1|]. destruct ok; [eapply IH; exact H|].
  destruct strict; [injection H as <-; apply rmst_refl|]. apply IH in H. exact H.
Qed.
Lemma deact_loop_rm m strict : forall rest kept w w', deact_loop m strict kept rest w = Some w' -> w_rm w' = w_rm w.
Proof.
  induction rest as [|n rest IH]; intros kept w w' H; cbn [deact_loop] in H; [congruence|].
  destruct (match find_ctrl m n with Some _ => _ | None => _ end); [eapply IH; exact H|].
  destruct strict; [discriminate|]. apply IH in H. exact H.
Qed.
Lemma conflict_rm m strict cs : forall w, rmst m (w_rm w) (w_rm (either (conflict_loop strict cs w))).
Proof.
  induction cs as [|c cs IH]; intros w; cbn [conflict_loop]; [apply rmst_refl|].
  assert (S1 : rmst m (w_rm w) (w_rm (either (conflict_one strict w c)))).
  { unfold conflict_one. cbv zeta.
    repeat match goal with |- context [if ?b then _ else _] => destruct b end; cbn [either];
    try apply rmst_refl;
    match goal with |- rmst _ ?a (w_rm (sw_itfs _ (cache_controller ?b ?n ?ks) _ _)) =>
      change (rmst m a (cache_controller a n ks)); unfold rmst;
      change (set_rm m (cache_controller a n ks)) with (set_rm (set_rm m a) (cache_controller (cm_rm (set_rm m a)) n ks));
      pr; apply p_cache end. }
  destruct (conflict_one strict w c) as [w1|w1]; cbn [either] in *; [eapply rmst_trans; [exact S1|apply IH]|exact S1].
Qed.

Lemma set_rm_same m : set_rm m (cm_rm m) = m. Proof. destruct m; reflexivity. Qed.

Lemma request_steps m a d strict asap m' o : switch_request e allow m a d strict asap = Val (m', o) ->
  exists r, st m (set_rm m r) /\ (m' = set_rm m r /\ o <> SwPending \/ exists p, m' = set_pend (set_rm m r) (Some p) /\ o = SwPending).
Proof.
  intros H. unfold switch_request in H.
  assert (Z : forall o', o' <> SwPending -> (m, o') = (m', o) ->
     exists r, st m (set_rm m r) /\ (m' = set_rm m r /\ o <> SwPending \/ exists p, m' = set_pend (set_rm m r) (Some p) /\ o = SwPending)).
  { intros o' Ho [= <- <-]. exists (cm_rm m). rewrite set_rm_same. split; [apply s_refl|]. left. auto. }
  destruct (list_controllers _ strict d [] true) as [d'|]; [|injection H as <- <-; eapply Z; [|reflexivity]; discriminate].
  destruct (list_controllers _ strict a [] true) as [a'|]; [|injection H as <- <-; eapply Z; [|reflexivity]; discriminate].
  clear Z. apply bind_val in H. destruct H as (w1 & H1 & H). apply propagate_rm in H1. cbn [w_rm] in H1.
  apply bind_val in H. destruct H as (x & H2 & H).
  apply (act_loop_rm m) in H2. rewrite H1 in H2. unfold rmst in H2. rewrite set_rm_same in H2.
  assert (Q : forall r o', o' <> SwPending -> st m (set_rm m r) -> (set_rm m r, o') = (m', o) ->
     exists r, st m (set_rm m r) /\ (m' = set_rm m r /\ o <> SwPending \/ exists p, m' = set_pend (set_rm m r) (Some p) /\ o = SwPending)).
  { intros r o' Ho S [= <- <-]. exists r. split; [exact S|]. left. auto. }
  destruct x as [w2|w2]; cbn [either] in H2; [|injection H as <- <-; eapply Q; [|exact H2|reflexivity]; discriminate].
  destruct (deact_loop m strict [] (w_deact w2) w2) as [w3|] eqn:H3; [|injection H as <- <-; eapply Q; [|exact H2|reflexivity]; discriminate].
  apply deact_loop_rm in H3.
  destruct (sw_empty w3); [rewrite H3 in H; injection H as <- <-; eapply Q; [|exact H2|reflexivity]; discriminate|].
  pose proof (conflict_rm m strict (cm_ctrls m) w3) as H4. rewrite H3 in H4.
  pose proof (steps_trans _ _ _ _ _ _ H2 H4) as S4. clear H4.
  destruct (conflict_loop strict (cm_ctrls m) w3) as [w4|w4]; cbn [either] in S4; [|injection H as <- <-; eapply Q; [|exact S4|reflexivity]; discriminate].
  destruct (sw_empty w4); [injection H as <- <-; eapply Q; [|exact S4|reflexivity]; discriminate|].
  apply bind_val in H. destruct H as (b & _ & H).
  destruct (negb b); [injection H as <- <-; eapply Q; [|exact S4|reflexivity]; discriminate|].
  pose proof (p_prepare e allow KS (set_rm m (w_rm w4)) (w_start w4) (w_stop w4)) as K. cbn [cm_rm set_rm] in K.
  destruct (rm_prepare e allow (w_rm w4) (w_start w4) (w_stop w4)) as [r5 ok]. cbn [fst] in K.
  assert (S5 : st m (set_rm m r5)) by (eapply s_one; [exact S4|exact K]).
  destruct (negb ok); [injection H as <- <-; eapply Q; [|exact S5|reflexivity]; discriminate|].
  injection H as <- <-. exists r5. split; [exact S5|]. right. eexists. split; reflexivity.
Qed.


(** ---- cleanup, unload, load, configure *)
Lemma cleanup_exports_steps m n : st m (cleanup_exports m n).
Proof.
  unfold cleanup_exports. destruct (find_ctrl m n) as [c|] eqn:F; [|apply s_refl].
  destruct (is_lc Active c) eqn:L; cbn [negb andb]; [apply s_refl|].
  destruct (c_chainable c) eqn:Ch; [|apply s_refl]. pr. apply (p_remove _ _ _ _ _ c); auto.
  intros C. unfold is_lc in L. rewrite C in L. discriminate.
Qed.
Lemma cleanup_spec_steps m n : st m (fst (cleanup_spec e m n)).
Proof. unfold cleanup_spec. cbn [fst]. eapply steps_trans; [apply cleanup_exports_steps|apply node_cleanup_steps]. Qed.
Lemma cleanup_controller_steps m n : st m (fst (cleanup_controller e m n)).
Proof.
  unfold cleanup_controller. destruct (find_ctrl m n) as [c|]; [|apply s_refl].
  destruct (c_lc c); try apply s_refl; apply cleanup_spec_steps.
Qed.
Lemma evaluate_steps m p : st m (fst (evaluate m p)).
Proof.
  unfold evaluate. cbn [fst]. eapply s_one; [pr; apply p_info; exact kp|]. apply p_pend. exact kp.
Qed.
Lemma load_steps m c b : st m (fst (load_controller m c b)).
Proof.
  unfold load_controller. destruct (find_ctrl m (c_name c)) eqn:F; [apply s_refl|].
  destruct b; [|apply s_refl]. cbn [fst]. pr. apply p_load; [exact kl|exact F].
Qed.

(** what the node transitions do not touch *)
Record frame (n : name) (m m' : cm) : Prop := {
  fr_names : map c_name (cm_ctrls m') = map c_name (cm_ctrls m);
  fr_other : forall k, k <> n -> find_ctrl m' k = find_ctrl m k;
  fr_spec : cm_spec m' = cm_spec m; fr_refc : cm_refc m' = cm_refc m; fr_stc : cm_stc m' = cm_stc m;
  fr_pend : cm_pend m' = cm_pend m;
  fr_const : forall c', find_ctrl m' n = Some c' -> exists c, find_ctrl m n = Some c /\ same_const c c'
}.
Lemma frame_refl n m : frame n m m.
Proof. constructor; auto. intros c' H. exists c'. split; [exact H|apply same_refl]. Qed.
Lemma same_trans a b c : same_const a b -> same_const b c -> same_const a c.
Proof. unfold same_const. intuition congruence. Qed.
Lemma frame_trans n a b c : frame n a b -> frame n b c -> frame n a c.
Proof.
  intros [A1 A2 A3 A4 A5 A6 A7] [B1 B2 B3 B4 B5 B6 B7]. constructor; try congruence.
  - intros k Hk. rewrite B2, A2 by exact Hk. reflexivity.
  - intros c' H. destruct (B7 c' H) as (c1 & H1 & S1). destruct (A7 c1 H1) as (c0 & H0 & S0).
    exists c0. split; [exact H0|eapply same_trans; eassumption].
Qed.
Lemma frame_set_rm n m r : frame n m (set_rm m r).
Proof. constructor; auto. intros c' H. exists c'. split; [exact H|apply same_refl]. Qed.
Lemma keeps_name f : keeps f -> forall c, c_name (f c) = c_name c.
Proof. intros H c. apply H. Qed.
Lemma frame_upd n m f : keeps f -> frame n m (upd m n f).
Proof.
  intros K. pose proof (keeps_name f K) as Hn. constructor; try reflexivity.
  - apply map_upd_names. exact Hn.
  - intros k Hk. unfold find_ctrl. cbn [upd set_ctrls cm_ctrls]. rewrite find_upd by exact Hn.
    destruct (find_in (cm_ctrls m) k); [|reflexivity]. destruct (String.eqb_spec k n); [contradiction|reflexivity].
  - intros c' H. unfold find_ctrl in *. cbn [upd set_ctrls cm_ctrls] in H. rewrite find_upd in H by exact Hn.
    destruct (find_in (cm_ctrls m) n) as [c|]; [|discriminate]. rewrite String.eqb_refl in H. injection H as <-.
    exists c. split; [reflexivity|apply K].
Qed.
Lemma keeps_lc l : keeps (upd_lc l). Proof. intros c. repeat split. Qed.
Lemma keeps_loans a b : keeps (upd_loans a b). Proof. intros c. repeat split. Qed.
Lemma keeps_chained b : keeps (upd_chained b). Proof. intros c. repeat split. Qed.
Lemma keeps_stop l : keeps (set_stop l). Proof. intros c. repeat split. Qed.
Lemma keeps_run a b : keeps (set_run a b). Proof. intros c. repeat split. Qed.

Lemma frame_emit n m ev : frame n m (emit m ev). Proof. apply frame_set_rm. Qed.
Lemma frame_release n m : frame n m (release_itfs m n).
Proof.
  unfold release_itfs. destruct (find_ctrl m n); [|apply frame_refl].
  eapply frame_trans; [apply frame_set_rm|apply frame_upd; apply keeps_loans].
Qed.
Lemma frame_error n m : frame n m (node_error e m n).
Proof.
  unfold node_error. eapply frame_trans; [|apply frame_upd; apply keeps_lc].
  eapply frame_trans; [apply frame_emit|apply frame_release].
Qed.
Lemma frame_transition n m cb from s f : frame n m (node_transition e m n cb from s f).
Proof.
  unfold node_transition. destruct (find_ctrl m n) as [c|]; [|apply frame_refl].
  destruct (from (c_lc c)); [|apply frame_refl]. unfold ctrl_call.
  destruct (e_ctrl e _ n cb); (eapply frame_trans; [apply frame_emit|]);
    try apply frame_error; apply frame_upd; apply keeps_lc.
Qed.
Lemma frame_shutdown n m : frame n m (node_shutdown e m n).
Proof.
  unfold node_shutdown. destruct (find_ctrl m n) as [c|]; [|apply frame_refl].
  assert (G : frame n m (let '(r, m1) := ctrl_call e m n CShutdown in
          let m2 := release_itfs m1 n in
          match r with
          | CbSuccess | CbFailure => upd m2 n (upd_lc Finalized)
          | CbError | CbThrow => node_error e m2 n
          end)).
  { unfold ctrl_call. destruct (e_ctrl e _ n CShutdown); (eapply frame_trans; [apply frame_emit|]);
      (eapply frame_trans; [apply frame_release|]); try apply frame_error; apply frame_upd; apply keeps_lc. }
  destruct (c_lc c); try apply frame_refl; exact G.
Qed.
Lemma frame_cleanup_exports n m : frame n m (cleanup_exports m n).
Proof.
  unfold cleanup_exports. destruct (find_ctrl m n) as [c|]; [|apply frame_refl].
  destruct (_ && _); [apply frame_set_rm|apply frame_refl].
Qed.
Lemma frame_chained n m b : frame n m (set_chained e m n b).
Proof.
  unfold set_chained. destruct (find_ctrl m n) as [c|]; [|apply frame_refl].
  destruct (_ && _); [|apply frame_refl]. destruct (e_set_chained e _ n b); [|apply frame_emit].
  eapply frame_trans; [apply frame_emit|]. apply frame_upd. apply keeps_chained.
Qed.

Lemma find_release n m c : find_ctrl m n = Some c -> find_ctrl (release_itfs m n) n = Some (upd_loans [] [] c).
Proof.
  intros F. rewrite (release_one _ _ _ F). rewrite (find_upd_same _ _ _ _ c) by (try reflexivity; exact F).
  rewrite String.eqb_refl. reflexivity.
Qed.

(** the final release of unload_controller *)
Lemma release_steps m n c : find_ctrl m n = Some c -> c_lc c <> Active -> NoDup (map c_name (cm_ctrls m)) ->
  st m (release_itfs m n).
Proof.
  intros F L ND. rewrite (release_one _ _ _ F).
  replace (upd _ n (upd_loans [] [])) with (upd (set_rm m (release_all (cm_rm m) (c_cloans c))) n (set_stop (c_lc c))).
  - pr. apply p_halt; [exact F|intros C; contradiction|auto].
  - unfold upd, set_ctrls, set_rm. cbn [cm_rm cm_ctrls cm_spec cm_refc cm_stc cm_pend]. f_equal.
    apply upd_in_ext. intros c0 Hc0 Hn0. pose proof (NoDup_find _ _ ND Hc0) as F0. rewrite Hn0 in F0.
    unfold find_ctrl in F. assert (c0 = c) by congruence. subst. destruct c; reflexivity.
Qed.

Definition not_active (m : cm) (n : name) : Prop := exists c, find_ctrl m n = Some c /\ c_lc c <> Active.
Lemma na_find n m m' f c : find_ctrl m n = Some c -> find_ctrl m' n = find_ctrl (upd m n f) n ->
  keeps f -> c_lc (f c) <> Active -> not_active m' n.
Proof.
  intros F E K L. exists (f c). rewrite E. rewrite (find_upd_same _ _ _ _ c) by (try apply keeps_name; assumption).
  rewrite String.eqb_refl. auto.
Qed.
Lemma na_error m n : (exists c, find_ctrl m n = Some c) -> not_active (node_error e m n) n.
Proof.
  intros [c F]. destruct (node_error_stop m n c F) as (l & ev & Hl & Hl' & Hev & ->).
  exists (set_stop l c). split; [|exact Hl]. apply (find_after_stop (emit m ev) n c l). exact F.
Qed.
Lemma na_transition m n cb from s f : s <> Active -> f <> Active -> not_active m n ->
  not_active (node_transition e m n cb from s f) n.
Proof.
  intros Hs Hf (c & F & L). unfold node_transition. rewrite F. destruct (from (c_lc c)); [|exists c; auto].
  unfold ctrl_call. destruct (e_ctrl e _ n cb).
  - eapply na_find; [exact F|reflexivity|apply keeps_lc|exact Hs].
  - eapply na_find; [exact F|reflexivity|apply keeps_lc|exact Hf].
  - apply na_error. exists c. exact F.
  - apply na_error. exists c. exact F.
Qed.
Lemma na_shutdown m n : not_active m n -> not_active (node_shutdown e m n) n.
Proof.
  intros (c & F & L). unfold node_shutdown. rewrite F.
  assert (G : not_active (let '(r, m1) := ctrl_call e m n CShutdown in
          let m2 := release_itfs m1 n in
          match r with
          | CbSuccess | CbFailure => upd m2 n (upd_lc Finalized)
          | CbError | CbThrow => node_error e m2 n
          end) n).
  { unfold ctrl_call. set (ev := EvCtrlCb n CShutdown _).
    assert (F2 : find_ctrl (release_itfs (emit m ev) n) n = Some (upd_loans [] [] c)) by (apply find_release; exact F).
    destruct (e_ctrl e _ n CShutdown).
    - eapply na_find; [exact F2|reflexivity|apply keeps_lc|discriminate].
    - eapply na_find; [exact F2|reflexivity|apply keeps_lc|discriminate].
    - apply na_error. eexists. exact F2.
    - apply na_error. eexists. exact F2. }
  destruct (c_lc c) eqn:L'; try exact G; exists c; (split; [exact F|congruence]).
Qed.
Lemma na_cleanup_exports m n : not_active m n -> not_active (cleanup_exports m n) n.
Proof.
  intros (c & F & L). unfold cleanup_exports. rewrite F. destruct (_ && _); exists c; auto.
Qed.
Lemma na_cleanup_spec m n : not_active m n -> not_active (fst (cleanup_spec e m n)) n.
Proof. intros H. apply na_transition; [discriminate..|]. apply na_cleanup_exports. exact H. Qed.
Lemma na_cleanup m n : not_active m n -> not_active (fst (cleanup_controller e m n)) n.
Proof.
  intros (c & F & L). unfold cleanup_controller. rewrite F.
  assert (X : not_active m n) by (exists c; auto).
  destruct (c_lc c); cbn [fst]; try exact X; apply na_cleanup_spec; exact X.
Qed.
Lemma frame_cleanup_spec m n : frame n m (fst (cleanup_spec e m n)).
Proof. eapply frame_trans; [apply frame_cleanup_exports|apply frame_transition]. Qed.
Lemma frame_cleanup m n : frame n m (fst (cleanup_controller e m n)).
Proof.
  unfold cleanup_controller. destruct (find_ctrl m n) as [c|]; [|apply frame_refl].
  destruct (c_lc c); try apply frame_refl; apply frame_cleanup_spec.
Qed.

Lemma topo_node_shutdown m n s a b : node_shutdown e (set_topo m s a b) n = set_topo (node_shutdown e m n) s a b.
Proof.
  unfold node_shutdown. change (find_ctrl (set_topo m s a b) n) with (find_ctrl m n).
  destruct (find_ctrl m n) as [c|] eqn:F; [|reflexivity].
  assert (G : forall m' : cm, release_itfs (set_topo m' s a b) n = set_topo (release_itfs m' n) s a b).
  { intros m'. unfold release_itfs. change (find_ctrl (set_topo m' s a b) n) with (find_ctrl m' n).
    destruct (find_ctrl m' n); reflexivity. }
  assert (G2 : forall m' : cm, node_error e (set_topo m' s a b) n = set_topo (node_error e m' n) s a b).
  { intros m'. unfold node_error. change (cm_rm (set_topo m' s a b)) with (cm_rm m').
    change (emit (set_topo m' s a b) ?ev) with (set_topo (emit m' ev) s a b).
    change (emit (set_topo m' s a b) (EvCtrlErr n (e_ctrl_error e (rm_trace (cm_rm m')) n)))
      with (set_topo (emit m' (EvCtrlErr n (e_ctrl_error e (rm_trace (cm_rm m')) n))) s a b).
    rewrite G. reflexivity. }
  unfold ctrl_call. change (cm_rm (set_topo m s a b)) with (cm_rm m).
  set (r := e_ctrl e (rm_trace (cm_rm m)) n CShutdown).
  change (emit (set_topo m s a b) (EvCtrlCb n CShutdown r)) with (set_topo (emit m (EvCtrlCb n CShutdown r)) s a b).
  rewrite G. destruct (c_lc c); try reflexivity; destruct r; try reflexivity; apply G2.
Qed.

Lemma unload_steps m n : NoDup (map c_name (cm_ctrls m)) -> st m (fst (unload_controller e m n)).
Proof.
  intros ND. unfold unload_controller. destruct (find_ctrl m n) as [c|] eqn:F; [|apply s_refl].
  destruct (is_lc Active c) eqn:L; [apply s_refl|].
  assert (NA : not_active m n).
  { exists c. split; [exact F|]. intros C. unfold is_lc in L. rewrite C in L. discriminate. }
  pose proof (cleanup_controller_steps m n) as S1. pose proof (na_cleanup m n NA) as NA1.
  pose proof (fr_names _ _ _ (frame_cleanup m n)) as N1.
  destruct (cleanup_controller e m n) as [m1 ok]. cbn [fst] in *.
  destruct (negb ok); [exact S1|]. cbv zeta. cbn [fst].
  set (s := spec_cleanup (cm_spec m1) n).
  set (m3' := if has_lc m1 n Inactive || has_lc m1 n Unconfigured then node_shutdown e m1 n else m1).
  assert (E3 : (if has_lc (set_topo m1 s (cm_refc m1) (cm_stc m1)) n Inactive || has_lc (set_topo m1 s (cm_refc m1) (cm_stc m1)) n Unconfigured
     then node_shutdown e (set_topo m1 s (cm_refc m1) (cm_stc m1)) n else set_topo m1 s (cm_refc m1) (cm_stc m1)) =
     set_topo m3' s (cm_refc m1) (cm_stc m1)).
  { change (has_lc (set_topo m1 s (cm_refc m1) (cm_stc m1)) n ?l) with (has_lc m1 n l).
    change (has_lc (set_topo m1 s (cm_refc m1) (cm_stc m1)) n Inactive) with (has_lc m1 n Inactive).
    change (has_lc (set_topo m1 s (cm_refc m1) (cm_stc m1)) n Unconfigured) with (has_lc m1 n Unconfigured).
    unfold m3'. destruct (_ || _); [apply topo_node_shutdown|reflexivity]. }
  rewrite E3. clear E3.
  assert (S3 : st m1 m3') by (unfold m3'; destruct (_ || _); [apply node_shutdown_steps|apply s_refl]).
  assert (FR : frame n m1 m3') by (unfold m3'; destruct (_ || _); [apply frame_shutdown|apply frame_refl]).
  assert (NA3 : not_active m3' n) by (unfold m3'; destruct (_ || _); [apply na_shutdown; exact NA1|exact NA1]).
  destruct NA3 as (c3 & F3 & L3).
  assert (ND3 : NoDup (map c_name (cm_ctrls m3'))) by (rewrite (fr_names _ _ _ FR), N1; exact ND).
  pose proof (release_steps m3' n c3 F3 L3 ND3) as S4.
  eapply steps_trans; [exact S1|]. eapply steps_trans; [exact S3|]. eapply s_one; [exact S4|].
  assert (E4 : release_itfs (set_topo m3' s (cm_refc m1) (cm_stc m1)) n = set_topo (release_itfs m3' n) s (cm_refc m1) (cm_stc m1)).
  { unfold release_itfs. change (find_ctrl (set_topo m3' s (cm_refc m1) (cm_stc m1)) n) with (find_ctrl m3' n). rewrite F3. reflexivity. }
  rewrite E4.
  pose proof (find_release n m3' c3 F3) as F4.
  pose proof (p_unload e allow KS (release_itfs m3' n) n _ kl F4 L3 eq_refl) as K.
  pose proof (frame_release n m3') as FR4.
  rewrite (fr_spec _ _ _ FR4), (fr_refc _ _ _ FR4), (fr_stc _ _ _ FR4), (fr_spec _ _ _ FR), (fr_refc _ _ _ FR), (fr_stc _ _ _ FR) in K.
  exact K.
Qed.

Lemma configure_steps m n order m' b : configure_controller e m n order = Val (m', b) -> st m m'.
Proof.
  unfold configure_controller. destruct (find_ctrl m n) as [c|] eqn:F; [|intros [= <- <-]; apply s_refl].
  assert (G : (let '(m1, ok1) := if is_lc Inactive c then cleanup_spec e m n else (m, true) in
      if negb ok1 then Val (m1, false)
      else
        let m2 := node_configure e (cleanup_exports m1 n) n in
        if negb (has_lc m2 n Inactive) then Val (m2, false)
        else if c_chainable c && negb (exports_ok c) then Val (fst (cleanup_spec e m2 n), false)
        else
          do m3 <- (if c_chainable c then
                      let '(r1, ok) := import_refs (cm_rm m2) n (c_refs c) in
                      if negb ok then Crash
                      else
                        exports_unavailable (set_chained e (set_rm m2 (import_exps r1 n (c_exps c))) n false) n
                    else Val m2);
          if negb (uniqueb (cmd_names (cm_rm m3) c)) || negb (uniqueb (state_names (cm_rm m3) c))
          then Val (fst (cleanup_spec e m3 n), false)
          else
            do m4 <- build_topology m3;
            do m5 <- reorder m4 order;
            Val (m5, true)) = Val (m', b) -> st m m').
  2:{ destruct (c_lc c); try exact G; intros [= <- <-]; apply s_refl. }
  assert (S1 : st m (fst (if is_lc Inactive c then cleanup_spec e m n else (m, true)))).
  { destruct (is_lc Inactive c); [apply cleanup_spec_steps|apply s_refl]. }
  assert (FR1 : frame n m (fst (if is_lc Inactive c then cleanup_spec e m n else (m, true)))).
  { destruct (is_lc Inactive c); [apply frame_cleanup_spec|apply frame_refl]. }
  destruct (if is_lc Inactive c then cleanup_spec e m n else (m, true)) as [m1 ok1]. cbn [fst] in *.
  destruct (negb ok1); [intros [= <- <-]; exact S1|]. cbv zeta.
  assert (S2 : st m (node_configure e (cleanup_exports m1 n) n)).
  { eapply steps_trans; [exact S1|]. eapply steps_trans; [apply cleanup_exports_steps|apply node_configure_steps]. }
  assert (FR2 : frame n m (node_configure e (cleanup_exports m1 n) n)).
  { eapply frame_trans; [exact FR1|]. eapply frame_trans; [apply frame_cleanup_exports|apply frame_transition]. }
  set (m2 := node_configure e (cleanup_exports m1 n) n) in *.
  destruct (negb (has_lc m2 n Inactive)) eqn:HI; [intros [= <- <-]; exact S2|].
  destruct (_ && _).
  { intros [= <- <-]. eapply steps_trans; [exact S2|apply cleanup_spec_steps]. }
  intros H. apply bind_val in H. destruct H as (m3 & H3 & H).
  assert (S3 : st m m3).
  { eapply steps_trans; [exact S2|]. destruct (c_chainable c) eqn:Ch; [|injection H3 as <-; apply s_refl].
    assert (F2 : exists c2, find_ctrl m2 n = Some c2).
    { unfold has_lc in HI. destruct (find_ctrl m2 n) as [c2|]; [eauto|discriminate]. }
    destruct F2 as [c2 F2]. destruct (fr_const _ _ _ FR2 c2 F2) as (c0 & F0 & SC).
    assert (c0 = c) by congruence. subst c0. destruct SC as (Q1 & Q2 & Q3 & Q4 & Q5 & Q6 & Q7).
    pose proof (p_import_refs e allow KS m2 n c2 ki F2) as K. rewrite Q6, Q2 in K. specialize (K Ch).
    destruct (import_refs (cm_rm m2) n (c_refs c)) as [r1 ok]. cbn [fst snd] in K.
    destruct ok; [|discriminate]. cbn [negb] in H3.
    eapply steps_trans; [apply steps_prim; apply K; reflexivity|].
    apply exports_unavailable_steps in H3. eapply steps_trans; [|exact H3].
    eapply steps_trans; [|apply set_chained_steps].
    change (set_rm m2 (import_exps r1 n (c_exps c))) with (set_rm (set_rm m2 r1) (import_exps (cm_rm (set_rm m2 r1)) n (c_exps c))).
    rewrite <- Q7. pr. apply p_import_exps; [exact ki|exact F2|congruence]. }
  destruct (_ || _).
  { injection H as <- <-. eapply steps_trans; [exact S3|apply cleanup_spec_steps]. }
  apply bind_val in H. destruct H as (m4 & H4 & H). apply bind_val in H. destruct H as (m5 & H5 & H).
  injection H as <- <-. eapply s_one; [exact S3|]. eapply p_topo; [exact kl|eassumption|eassumption].
Qed.

(** ---- the real-time cycle *)
Lemma read_steps m : st m (cm_read e allow m).
Proof.
  unfold cm_read. pose proof (p_read e allow KS m kh) as K. destruct (rm_read e (cm_rm m)) as [r1 s]. cbn [fst] in K.
  destruct (rtype_eqb (rw_result s) ROk); [pr; exact K|].
  eapply steps_trans; [pr; exact K|]. eapply steps_trans; [apply prep_perf_steps|apply deactivate_steps].
Qed.
Lemma write_steps m : st m (cm_write e allow m).
Proof.
  unfold cm_write. pose proof (p_write e allow KS m kh) as K. destruct (rm_write e (cm_rm m)) as [r1 s]. cbn [fst] in K.
  destruct (rw_result s); [pr; exact K| |];
  (eapply steps_trans; [pr; exact K|]; eapply steps_trans; [apply prep_perf_steps|apply deactivate_steps]).
Qed.
Lemma update_one_steps p s c : st (fst s) (fst (update_one e p s c)).
Proof.
  destruct s as [m ds]. unfold update_one. destruct (skipped p (c_name c)); [apply s_refl|].
  destruct (_ && _); [|apply s_refl]. set (r := e_update e _ _).
  assert (S : st m (emit m (EvUpdate (c_name c) r))) by (apply emit_step; reflexivity).
  destruct r as [[]|]; exact S.
Qed.
Lemma update_loop_steps p cs : forall s, st (fst s) (fst (fold_left (update_one e p) cs s)).
Proof.
  induction cs as [|c cs IH]; intros s; cbn [fold_left]; [apply s_refl|].
  eapply steps_trans; [apply update_one_steps|apply IH].
Qed.
Lemma update_steps m m' : cm_update e allow m = Val m' -> st m m'.
Proof.
  unfold cm_update. pose proof (update_loop_steps (cm_pend m) (cm_ctrls m) (m, [])) as S.
  destruct (fold_left _ _ _) as [m1 ds]. cbn [fst] in S. destruct ds as [|d ds]; [intros [= <-]; exact S|].
  cbv zeta. intros H.
  match type of H with match ?l with _ => _ end = _ => destruct l end.
  - injection H as <-. eapply steps_trans; [exact S|]. eapply steps_trans; [apply prep_perf_steps|apply deactivate_steps].
  - apply activate_steps in H. eapply steps_trans; [exact S|]. eapply steps_trans; [|exact H].
    eapply steps_trans; [apply prep_perf_steps|apply deactivate_steps].
Qed.

(** ---- one operation *)
Lemma cstep_steps m o m' out : NoDup (map c_name (cm_ctrls m)) -> cstep e allow m o = Val (m', out) -> st m m'.
Proof.
  intros ND. unfold cstep. set (m0 := emit m EvOp).
  assert (S0 : st m m0) by (apply emit_step; reflexivity).
  assert (SV : forall x, (x = Val (m', out) -> st m0 m') -> serviced m0 x = Val (m', out) -> st m m').
  { intros x Hx H. unfold serviced in H. destruct (cm_pend m0); [injection H as <- <-; exact S0|].
    eapply steps_trans; [exact S0|apply Hx; exact H]. }
  destruct o.
  - apply SV. intros [= <- <-]. apply load_steps.
  - apply SV. intros [= <- <-]. apply unload_steps. exact ND.
  - apply SV. intros [= <- <-]. apply cleanup_controller_steps.
  - apply SV. intros H. apply bind_val in H. destruct H as ([m1 b] & H & H1). injection H1 as <- <-.
    eapply configure_steps. exact H.
  - apply SV. intros H. apply bind_val in H. destruct H as ([m1 b] & H & H1). injection H1 as <- <-.
    apply request_steps in H. destruct H as (r & S & [[-> _]|(p & -> & _)]); [exact S|].
    eapply s_one; [exact S|]. apply p_pend. exact kp.
  - destruct (cm_pend m0) as [p|]; [|intros [= <- <-]; exact S0].
    destruct (p_done p); [intros [= <- <-]; exact S0|].
    intros H. apply bind_val in H. destruct H as (m1 & H & H1). injection H1 as <- <-.
    apply manage_switch_steps in H. eapply s_one; [eapply steps_trans; [exact S0|exact H]|]. apply p_pend. exact kp.
  - destruct (cm_pend m0) as [p|]; [|intros [= <- <-]; exact S0].
    destruct (p_done p); intros [= <- <-]; [exact S0|]. eapply s_one; [exact S0|apply p_pend; exact kp].
  - destruct (cm_pend m0) as [p|]; [|intros [= <- <-]; exact S0].
    destruct (p_done p); intros [= <- <-]; [|exact S0].
    eapply steps_trans; [exact S0|]. apply (evaluate_steps m0 p).
  - intros [= <- <-]. eapply steps_trans; [exact S0|apply read_steps].
  - intros H. apply bind_val in H. destruct H as (m1 & H & H1). injection H1 as <- <-.
    eapply steps_trans; [exact S0|eapply update_steps; exact H].
  - intros [= <- <-]. eapply steps_trans; [exact S0|apply write_steps].
  - pose proof (p_sethw e allow KS m0 h target kh) as K. destruct (set_component_state e (cm_rm m0) h target) as [r1 ok].
    intros [= <- <-]. eapply s_one; [exact S0|exact K].
Qed.

End Decompose.

(** An invariant of the primitive steps that implies unique names holds after every history. *)
Lemma crun_inv e allow (P : cm -> Prop) :
  (forall m, P m -> NoDup (map c_name (cm_ctrls m))) ->
  (forall a b, P a -> prim e allow any_kind a b -> P b) ->
  forall ops m m', P m -> crun e allow m ops = Val m' -> P m'.
Proof.
  intros HN HP. unfold crun. induction ops as [|o ops IH]; intros m m' Hm H; cbn [rfold] in H.
  - injection H as <-. exact Hm.
  - apply bind_val in H. destruct H as (m1 & H1 & H). apply bind_val in H1. destruct H1 as ([m2 out] & H1 & H2).
    injection H2 as <-. eapply IH; [|exact H]. eapply steps_inv; [exact HP|exact Hm|].
    eapply cstep_steps; [exact I|exact I|exact I|exact I|exact I|exact I|apply HN; exact Hm|exact H1].
Qed.
Lemma cstep_inv e allow (P : cm -> Prop) :
  (forall m, P m -> NoDup (map c_name (cm_ctrls m))) ->
  (forall a b, P a -> prim e allow any_kind a b -> P b) ->
  forall o m m' out, P m -> cstep e allow m o = Val (m', out) -> P m'.
Proof.
  intros HN HP o m m' out Hm H. eapply steps_inv; [exact HP|exact Hm|]. eapply cstep_steps; [exact I|exact I|exact I|exact I|exact I|exact I|apply HN; exact Hm|exact H].
Qed.

