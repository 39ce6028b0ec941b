(** ChainMain.v -- C19, C20, C21: the execution order and the chain groups. *)
From Coq Require Import Permutation.
From Verif Require Import Base Events HwModel RmModel ChainModel ChainProofs CmModel CmPrim ChainSpec CmTopo.

Lemma main_order e allow hs ops m n order m' :
  crun e allow (cm_start hs) ops = Val m -> configure_controller e m n order = Val (m', true) ->
  tree_like (data_flow m') ->
  forall a b, data_flow m' a b -> comes_before a b (map c_name (cm_ctrls m')).
Proof.
  intros HR HC (T1 & T2 & T3) a b HD.
  destruct (configure_success _ _ _ _ _ (reach_NI _ _ _ _ _ HR) HC)
    as (m3 & s & rc & sc & names & N3 & EN & HO & E1 & E2 & E3 & E4 & EM & PM & CG & DF & KN & F & P & _).
  assert (HF : forall x y, In y (following (get_links s x)) <-> data_flow m' x y) by (intros; rewrite F, DF; tauto).
  assert (HP : forall x y, In x (preceding (get_links s y)) <-> data_flow m' x y) by (intros; rewrite P, DF; tauto).
  assert (MI : mirrored s) by (intros x y; rewrite HF, HP; tauto).
  assert (HA : forall x y, touching (data_flow m') x y <-> adj s x y).
  { intros x y. unfold touching, adj. rewrite HF, HP. tauto. }
  assert (FO : forest s).
  { split; [|split].
    - intros x Hx. apply HA in Hx. destruct Hx as [Hx|Hx]; exact (T1 x Hx).
    - intros x y Hx Hy. apply HF in Hx. apply HP in Hy. exact (T2 x y Hx Hy).
    - intros c x y Hx Hy W. apply (T3 c x y); [apply HA; exact Hx|apply HA; exact Hy|].
      apply (path_walk s); [exact HA|exact W]. }
  assert (O : ordered s names).
  { eapply (order_all_forest s MI FO (iteration order s) []); [| | | |exact HO].
    - intros x Hx. apply (iteration_keys order s x). exact Hx.
    - intros x y [].
    - intros x y [].
    - intros x y []. }
  assert (NM : forall x, In x (map c_name (cm_ctrls m')) -> mem x (map c_name (cm_ctrls m3)) = true /\ In x names).
  { intros x Hx. rewrite EM in Hx. apply filter_In in Hx. tauto. }
  assert (L : forall x y, data_flow m' x y -> In x (map c_name (cm_ctrls m')) /\ In y (map c_name (cm_ctrls m'))).
  { intros x y [(c & Hc & <- & _ & Hb & _)|(c & Hc & <- & _ & Hb & _)].
    - split; [apply in_map; exact Hc|exact Hb].
    - split; [exact Hb|apply in_map; exact Hc]. }
  destruct (L a b HD) as [La Lb]. destruct (NM a La) as [Ma Na]. destruct (NM b Lb) as [Mb Nb].
  rewrite EM. apply prec_filter; [exact Ma|exact Mb|]. apply O; [exact Na|exact Nb|]. apply HF. exact HD.
Qed.

Lemma main_group e allow hs ops m n order m' :
  crun e allow (cm_start hs) ops = Val m -> configure_controller e m n order = Val (m', true) ->
  forall c, In c (cm_ctrls m') -> NoDup (c_group c) /\ forall x, In x (c_group c) <-> linked (data_flow m') (c_name c) x.
Proof.
  intros HR HC c' Hc'.
  destruct (configure_success _ _ _ _ _ (reach_NI _ _ _ _ _ HR) HC)
    as (m3 & s & rc & sc & names & N3 & EN & HO & E1 & E2 & E3 & E4 & EM & PM & CG & DF & KN & F & P & _).
  destruct (CG c' Hc') as (c & Hc & ->). cbn [upd_group c_group c_name].
  assert (HA : forall x y, touching (data_flow m') x y <-> adj s x y).
  { intros x y. unfold touching, adj. rewrite F, P, !DF. tauto. }
  assert (KF : forall x y, adj s x y -> known s y).
  { intros x y Hxy. apply aget_In. apply KN. apply HA in Hxy.
    assert (L : forall x y, data_flow m' x y -> In x (map c_name (cm_ctrls m3)) /\ In y (map c_name (cm_ctrls m3))).
    { intros p q D. apply DF in D. destruct D as [(d & Hd & <- & _ & Hb & _)|(d & Hd & <- & _ & Hb & _)].
      - split; [apply in_map; exact Hd|exact Hb].
      - split; [exact Hb|apply in_map; exact Hd]. }
    destruct Hxy as [D|D]; apply L in D; tauto. }
  destruct (chain_group_spec s (c_name c)) as (l & R & ND & M).
  { apply aget_In. apply KN. apply in_map. exact Hc. }
  unfold chain_group. rewrite R. split; [exact ND|]. intros x. rewrite M. clear -HA KF.
  split; intros H; induction H.
  - apply linked_refl.
  - eapply linked_step; [exact IHconn|]. apply HA. assumption.
  - apply conn_refl.
  - apply HA in H0. eapply conn_step; [exact IHlinked|exact H0|eapply KF; exact H0].
Qed.

(** ---- C20: what every operation does to the list of controllers *)
Definition not_list (k : pk) : Prop := k <> KList.
Lemma prim_names e allow m m' : prim e allow not_list m m' -> map c_name (cm_ctrls m') = map c_name (cm_ctrls m).
Proof.
  intros P. destruct P; try reflexivity; try (apply (map_upd_names (cm_ctrls m) n); reflexivity);
  try (match goal with H : not_list KList |- _ => exfalso; apply H; reflexivity end).
  cbn [set_ctrls cm_ctrls]. rewrite map_map. apply map_ext. reflexivity.
Qed.
Lemma steps_names e allow m m' : steps e allow not_list m m' -> map c_name (cm_ctrls m') = map c_name (cm_ctrls m).
Proof. intros S. induction S; [reflexivity|]. apply prim_names in H. congruence. Qed.

Lemma configure_false_names e m n order m' : configure_controller e m n order = Val (m', false) ->
  map c_name (cm_ctrls m') = map c_name (cm_ctrls m).
Proof.
  unfold configure_controller. destruct (find_ctrl m n) as [c|] eqn:F; [|intros [= <-]; reflexivity].
  assert (G : (let '(m1, ok1) := if is_lc Inactive c then cleanup_spec e m n else (m, true) in
      if negb ok1 then Val (m1, false)
      else
        let m2 := node_configure e (cleanup_exports m1 n) n in
        if negb (has_lc m2 n Inactive) then Val (m2, false)
        else if c_chainable c && negb (exports_ok c) then Val (fst (cleanup_spec e m2 n), false)
        else
          do m3 <- (if c_chainable c then
                      let '(r1, ok) := import_refs (cm_rm m2) n (c_refs c) in
                      if negb ok then Crash
                      else
                        exports_unavailable (set_chained e (set_rm m2 (import_exps r1 n (c_exps c))) n false) n
                    else Val m2);
          if negb (uniqueb (cmd_names (cm_rm m3) c)) || negb (uniqueb (state_names (cm_rm m3) c))
          then Val (fst (cleanup_spec e m3 n), false)
          else
            do m4 <- build_topology m3;
            do m5 <- reorder m4 order;
            Val (m5, true)) = Val (m', false) -> frame n m m').
  2:{ intros H. destruct (c_lc c); try (injection H as <-; reflexivity); apply fr_names with (n := n); apply G; exact H. }
  assert (FR1 : frame n m (fst (if is_lc Inactive c then cleanup_spec e m n else (m, true)))).
  { destruct (is_lc Inactive c); [apply frame_cleanup_spec|apply frame_refl]. }
  destruct (if is_lc Inactive c then cleanup_spec e m n else (m, true)) as [m1 ok1]. cbn [fst] in *.
  destruct (negb ok1); [intros [= <-]; exact FR1|]. cbv zeta.
  assert (FR2 : frame n m (node_configure e (cleanup_exports m1 n) n)).
  { eapply frame_trans; [exact FR1|]. eapply frame_trans; [apply frame_cleanup_exports|apply frame_transition]. }
  set (m2 := node_configure e (cleanup_exports m1 n) n) in *.
  destruct (negb (has_lc m2 n Inactive)); [intros [= <-]; exact FR2|].
  destruct (_ && _); [intros [= <-]; eapply frame_trans; [exact FR2|apply frame_cleanup_spec]|].
  intros H. apply bind_val in H. destruct H as (m3 & H3 & H).
  assert (FR3 : frame n m m3).
  { destruct (c_chainable c); [|injection H3 as <-; exact FR2].
    destruct (import_refs (cm_rm m2) n (c_refs c)) as [r1 ok]. destruct ok; [|discriminate]. cbn [negb] in H3.
    apply exports_un_rm in H3. destruct H3 as [r ->]. eapply frame_trans; [exact FR2|].
    eapply frame_trans; [apply frame_set_rm|]. eapply frame_trans; [apply frame_chained|apply frame_set_rm]. }
  destruct (_ || _); [injection H as <-; eapply frame_trans; [exact FR3|apply frame_cleanup_spec]|].
  apply bind_val in H. destruct H as (m4 & H4 & H). apply bind_val in H. destruct H as (m5 & H5 & H). discriminate.
Qed.

Lemma unload_names e m n : 
  map c_name (cm_ctrls (fst (unload_controller e m n))) =
  if snd (unload_controller e m n) then filter (fun x => negb (String.eqb x n)) (map c_name (cm_ctrls m))
  else map c_name (cm_ctrls m).
Proof.
  unfold unload_controller. destruct (find_ctrl m n) as [c|] eqn:F; [|reflexivity].
  destruct (is_lc Active c); [reflexivity|].
  pose proof (frame_cleanup e m n) as FR. destruct (cleanup_controller e m n) as [m1 ok]. cbn [fst] in FR.
  destruct (negb ok); [cbn [fst snd]; apply (fr_names _ _ _ FR)|]. cbn [fst snd].
  set (m2 := set_topo m1 _ _ _). 
  assert (F2 : frame n m2 (if has_lc m2 n Inactive || has_lc m2 n Unconfigured then node_shutdown e m2 n else m2)).
  { destruct (_ || _); [apply frame_shutdown|apply frame_refl]. }
  set (m3 := if has_lc m2 n Inactive || has_lc m2 n Unconfigured then node_shutdown e m2 n else m2) in *.
  pose proof (frame_release n m3) as F4.
  assert (E : map c_name (cm_ctrls (release_itfs m3 n)) = map c_name (cm_ctrls m)).
  { rewrite (fr_names _ _ _ F4), (fr_names _ _ _ F2). exact (fr_names _ _ _ FR). }
  rewrite <- E. cbn [set_ctrls cm_ctrls]. clear. induction (cm_ctrls (release_itfs m3 n)) as [|x l IH]; [reflexivity|].
  cbn [map filter]. destruct (negb (String.eqb (c_name x) n)); cbn [map]; rewrite IH; reflexivity.
Qed.

Lemma filter_perm n l : NoDup l -> In n l -> Permutation l (n :: filter (fun x => negb (String.eqb x n)) l).
Proof.
  induction l as [|a l IH]; intros ND HI; [destruct HI|]. inversion ND as [|? ? H1 H2]; subst.
  cbn [filter]. destruct (String.eqb_spec a n) as [->|Ne]; cbn [negb].
  - apply perm_skip. clear -H1. induction l as [|b l IH]; [constructor|]. cbn [filter].
    destruct (String.eqb_spec b n) as [->|Ne]; [exfalso; apply H1; left; reflexivity|]. cbn [negb].
    apply perm_skip. apply IH. intros C. apply H1. right. exact C.
  - destruct HI as [->|HI]; [congruence|]. eapply perm_trans; [apply perm_skip; apply IH; [exact H2|exact HI]|]. apply perm_swap.
Qed.

Lemma main_list e allow hs ops m o m' out :
  crun e allow (cm_start hs) ops = Val m -> cstep e allow m o = Val (m', out) ->
  NoDup (map c_name (cm_ctrls m')) /\
  match o, out with
  | CLoad c _, CBool true => Permutation (map c_name (cm_ctrls m')) (c_name c :: map c_name (cm_ctrls m))
  | CUnload n, CBool true => Permutation (map c_name (cm_ctrls m)) (n :: map c_name (cm_ctrls m'))
  | CConfigure _ _, CBool true => Permutation (map c_name (cm_ctrls m')) (map c_name (cm_ctrls m))
  | _, _ => map c_name (cm_ctrls m') = map c_name (cm_ctrls m)
  end.
Proof.
  intros HR HS. pose proof (reach_NI _ _ _ _ _ HR) as HN.
  split.
  { eapply (cstep_inv e allow NI); [intros m0 H0; exact (proj1 H0)|intros a b; apply prim_NI|exact HN|exact HS]. }
  unfold cstep in HS. set (m0 := emit m EvOp) in *.
  assert (E0 : map c_name (cm_ctrls m0) = map c_name (cm_ctrls m)) by reflexivity.
  assert (N0 : NI m0) by exact HN.
  assert (KU : not_list KUp) by discriminate. assert (KH : not_list KHw) by discriminate. assert (KI : not_list KImport) by discriminate.
  assert (SV : forall x (P : Prop), (x = Val (m', out) -> P) -> (out = CBlocked -> map c_name (cm_ctrls m') = map c_name (cm_ctrls m) -> P) ->
     serviced m0 x = Val (m', out) -> P).
  { intros x P A B H. unfold serviced in H. destruct (cm_pend m0); [injection H as <- <-; apply B; [reflexivity|exact E0]|apply A; exact H]. }
  rewrite <- E0. destruct o.
  - revert HS. apply SV; [|intros -> E; exact E]. intros [= <- <-]. unfold load_controller.
    destruct (find_ctrl m0 (c_name c)); [reflexivity|]. destruct init_ok; [|reflexivity]. cbn [fst snd].
    cbn [set_topo set_ctrls cm_ctrls]. rewrite map_app. cbn [map fresh c_name]. symmetry. apply Permutation_cons_append.
  - revert HS. apply SV; [|intros -> E; exact E]. intros [= <- <-]. pose proof (unload_names e m0 n) as U.
    destruct (snd (unload_controller e m0 n)) eqn:S; [|exact U]. rewrite U. apply filter_perm; [exact (proj1 N0)|].
    unfold unload_controller in S. destruct (find_ctrl m0 n) as [c|] eqn:F; [|discriminate].
    pose proof (find_in_name _ _ _ F) as <-. apply in_map. eapply find_in_In. exact F.
  - revert HS. apply SV; [|intros -> E; exact E]. intros [= <- <-]. apply (fr_names _ _ _ (frame_cleanup e m0 n)).
  - revert HS. apply SV; [|intros -> E; exact E]. intros H. apply bind_val in H. destruct H as ([m1 b] & H & H1).
    injection H1 as <- <-. cbn [fst snd]. destruct b; [|eapply configure_false_names; exact H].
    destruct (configure_success _ _ _ _ _ N0 H) as (m3 & s & rc & sc & names & _ & EN & _ & _ & _ & _ & _ & _ & PM & _).
    rewrite EN in PM. exact PM.
  - revert HS. apply SV; [|intros -> E; exact E]. intros H. apply bind_val in H. destruct H as ([m1 b] & H & H1).
    injection H1 as <- <-. apply (request_steps e allow not_list) in H.
    destruct H as (r & S & [[-> _]|(p & -> & _)]); reflexivity.
  - destruct (cm_pend m0) as [p|]; [|injection HS as <- <-; reflexivity].
    destruct (p_done p); [injection HS as <- <-; reflexivity|].
    apply bind_val in HS. destruct HS as (m1 & H & H1). injection H1 as <- <-.
    apply (manage_switch_steps e allow not_list KU) in H. apply steps_names in H. exact H.
  - destruct (cm_pend m0) as [p|]; [destruct (p_done p)|]; injection HS as <- <-; reflexivity.
  - destruct (cm_pend m0) as [p|]; [|injection HS as <- <-; reflexivity].
    destruct (p_done p); injection HS as <- <-; [|reflexivity].
    apply (steps_names e allow). exact (evaluate_steps e allow not_list ltac:(discriminate) m0 p).
  - injection HS as <- <-. apply (steps_names e allow). apply read_steps. exact KH.
  - apply bind_val in HS. destruct HS as (m1 & H & H1). injection H1 as <- <-.
    apply (update_steps e allow not_list KU) in H. apply (steps_names e allow) in H. exact H.
  - injection HS as <- <-. apply (steps_names e allow). apply write_steps. exact KH.
  - destruct (set_component_state e (cm_rm m0) h target) as [r1 ok]. injection HS as <- <-. reflexivity.
Qed.

(** the ordering itself never fails *)
Lemma main_order_total s keys : incl keys (map fst s) -> exists l, order_all s keys [] = Some l /\ NoDup l /\ incl keys l.
Proof.
  intros H. destruct (order_all_gen s keys [] H) as (l & E & _ & ND & HI & _). exists l. split; [exact E|]. split; [apply ND; constructor|exact HI].
Qed.
