(** CmExport5.v -- the exports of a chainable controller over whole histories. *)
From Coq Require Import Lia Permutation.
From Verif Require Import Base Events HwModel RmModel RmSys RmSpec RmSpec2 HwProofs RmProofs RmInv RmAvail RmMode RmExact ChainModel CmModel CmPrim ChainSpec CmTopo CmInv CmSpec CmReach CmSwitch CmOutcome CmLoad CmIntact FollowSpec UpdateSpec CmDeact CmErr CmFallback LifeSpec CmLife CmRefs DoneSpec CmDone CmCycle ExportSpec CmExport CmExport2 CmExport3 CmExport4.
Open Scope list_scope.

Section Hist.
Variables (e : env) (allow : bool) (n : name).
Notation nor m := (not_on_record m n).
Notation Reg := (Reg n).
Notation XR := (XR e n).
Notation YK := (YK n).
Lemma configure_Reg m order m' b : steady e n -> cleans e n -> G m -> nd (cm_rm m) -> Reg m -> configure_controller e m n order = Val (m', b) -> Reg m'.
Proof.
  intros S C HG D R H. pose proof H as H0. unfold configure_controller in H. destruct (find_ctrl m n) as [c|] eqn:F; [|injection H as <- _; exact R].
  pose proof (Reg_na n m c F R) as NA.
  destruct (lc_eqb (c_lc c) Active) eqn:LA; [destruct (c_lc c); try discriminate LA; injection H as <- _; exact R|].
  assert (X1 : exists c1, find_ctrl (fst (if is_lc Inactive c then cleanup_spec e m n else (m, true))) n = Some c1 /\ same_const c c1 /\ c_lc c1 = Unconfigured /\
            nor (fst (if is_lc Inactive c then cleanup_spec e m n else (m, true))) /\ snd (if is_lc Inactive c then cleanup_spec e m n else (m, true)) = true).
  { unfold is_lc. destruct (c_lc c) eqn:L; try discriminate LA; try (unfold CmExport4.Reg in R; rewrite F, L in R; contradiction).
    - cbn. exists c. split; [exact F|]. split; [apply same_const_refl|]. split; [exact L|]. split; [|reflexivity]. unfold CmExport4.Reg in R. rewrite F, L in R. exact R.
    - cbn [lc_eqb]. exact (cleanup_spec_self e n m c S C F L NA). }
  assert (S1 : steps e allow any_kind m (fst (if is_lc Inactive c then cleanup_spec e m n else (m, true)))) by (destruct (is_lc Inactive c); [apply cleanup_spec_steps; exact I|apply s_refl]).
  destruct (if is_lc Inactive c then cleanup_spec e m n else (m, true)) as [m1 ok1]. cbn [fst snd] in *. destruct X1 as (c1 & F1 & SC1 & L1 & N1 & ->).
  assert (H' : (
        let m2 := node_configure e (cleanup_exports m1 n) n in
        if negb (has_lc m2 n Inactive) then Val (m2, false)
        else if c_chainable c && negb (exports_ok c) then Val (fst (cleanup_spec e m2 n), false)
        else
          do m3 <- (if c_chainable c then
                      let '(r1, ok) := import_refs (cm_rm m2) n (c_refs c) in
                      if negb ok then Crash
                      else
                        exports_unavailable (set_chained e (set_rm m2 (import_exps r1 n (c_exps c))) n false) n
                    else Val m2);
          if negb (uniqueb (cmd_names (cm_rm m3) c)) || negb (uniqueb (state_names (cm_rm m3) c))
          then Val (fst (cleanup_spec e m3 n), false)
          else
            do m4 <- build_topology m3;
            do m5 <- reorder m4 order;
            Val (m5, true)) = Val (m', b)).
  { destruct (c_lc c) eqn:L; try exact H; [discriminate LA|]. unfold CmExport4.Reg in R; rewrite F, L in R; contradiction. }
  clear H. cbv zeta in H'.
  destruct (cleanup_exports_self n m1 c1 F1) as [N1' F1']; [congruence|intros _; exact N1|].
  destruct (transition_self e n (cleanup_exports m1 n) c1 Events.CConfigure (lc_eqb Unconfigured) Inactive Unconfigured S F1') as (c2 & F2 & SC2 & Q2); [rewrite L1; reflexivity|].
  fold (node_configure e (cleanup_exports m1 n) n) in F2.
  assert (N2 : nor (node_configure e (cleanup_exports m1 n) n)) by (eapply nor_quiet; [apply q_transition|exact N1']).
  assert (S2 : steps e allow any_kind m (node_configure e (cleanup_exports m1 n) n)).
  { eapply steps_trans; [exact S1|]. eapply steps_trans; [apply cleanup_exports_steps; exact I|apply node_configure_steps; exact I]. }
  set (m2 := node_configure e (cleanup_exports m1 n) n) in *. assert (SC : same_const c c2) by (eapply same_const_trans; eassumption).
  assert (Ch2 : c_chainable c2 = c_chainable c) by apply SC.
  unfold has_lc in H'. rewrite F2 in H'.
  destruct (is_lc Inactive c2) eqn:LI; cbn [negb] in H'.
  2:{ injection H' as <- _. unfold CmExport4.Reg. rewrite F2. unfold is_lc in LI. destruct Q2 as [[Q _]|[Q _]]; rewrite Q in *; [discriminate LI|exact N2]. }
  assert (LI' : c_lc c2 = Inactive) by (unfold is_lc in LI; destruct (c_lc c2); try discriminate LI; reflexivity).
  destruct (c_chainable c && negb (exports_ok c)).
  { assert (Em : m' = fst (cleanup_spec e m2 n)) by congruence. rewrite Em. clear Em H'. destruct (cleanup_spec_self e n m2 c2 S C F2 LI' (fun _ => N2)) as (c' & F' & _ & L' & N' & _). unfold CmExport4.Reg. rewrite F', L'. exact N'. }
  apply bind_val in H'. destruct H' as (m3 & H3 & H).
  assert (X3 : exists c3, find_ctrl m3 n = Some c3 /\ same_const c c3 /\ c_lc c3 = Inactive /\ (c_chainable c = false -> m3 = m2)).
  { destruct (c_chainable c) eqn:Ch; [|injection H3 as <-; exists c2; auto].
    destruct (import_refs (cm_rm m2) n (c_refs c)) as [r1 []]; [|discriminate]. cbn [negb] in H3.
    destruct (chained_find e n (set_rm m2 (import_exps r1 n (c_exps c))) false c2 F2) as (c3 & F3 & S3 & L3). destruct (un_self n _ _ H3) as (_ & _ & U3 & _).
    exists c3. split; [unfold find_ctrl in *; rewrite U3; exact F3|]. split; [eapply same_const_trans; eassumption|]. split; [congruence|discriminate]. }
  destruct X3 as (c3 & F3 & SC3 & L3 & E3).
  destruct (negb (uniqueb (cmd_names (cm_rm m3) c)) || negb (uniqueb (state_names (cm_rm m3) c))).
  { assert (Em : m' = fst (cleanup_spec e m3 n)) by congruence. rewrite Em. clear Em H. destruct (cleanup_spec_self e n m3 c3 S C F3 L3) as (c' & F' & _ & L' & N' & _).
    - intros Ch. rewrite (proj1 (proj2 SC3)) in Ch. rewrite (E3 Ch). exact N2.
    - unfold CmExport4.Reg. rewrite F', L'. exact N'. }
  apply bind_val in H. destruct H as (m4 & H4 & H). apply bind_val in H. destruct H as (m5 & H5 & H). injection H as <- <-.
  destruct (configure_self_ok e allow n m order m5 HG D H0) as (c0 & c5 & F0 & F5 & SC5 & L5 & X5). assert (c0 = c) by congruence. subst c0.
  unfold CmExport4.Reg. rewrite F5, L5, (proj1 (proj2 SC5)). destruct (c_chainable c) eqn:Ch; [apply X5; reflexivity|].
  pose proof (q_topo m3 m4 order m5 H4 H5) as ER. rewrite (E3 eq_refl) in ER. unfold not_on_record, refs_of, exps_of in *. rewrite ER. exact N2.
Qed.
Lemma Reg_YK m m' : YK m m' -> Reg m -> Reg m'.
Proof.
  intros [[A B _] F] R. unfold CmExport4.Reg in *. unfold not_on_record, on_record, refs_of, exps_of in *. destruct (find_ctrl m n) as [c|] eqn:Fc.
  - pose proof (find_in_name _ _ _ Fc) as Nm. destruct F as (c' & F' & (S1 & S2 & _ & _ & _ & S6 & S7) & L). rewrite F', L, S2, S1, S6, S7, A, B. rewrite Nm in *. rewrite A, B. exact R.
  - rewrite F, A, B. exact R.
Qed.
Lemma Reg_XW m m' : steady e n -> XW e n m m' -> Reg m -> Reg m'.
Proof.
  intros S [A B _ F] R. unfold CmExport4.Reg in *. unfold not_on_record, on_record, refs_of, exps_of in *. rewrite A, B. destruct (find_ctrl m n) as [c|] eqn:Fc.
  - destruct F as (c' & F' & (S1 & S2 & _ & _ & _ & S6 & S7) & K). rewrite F', S2, S1, S6, S7. destruct (K S) as [[[E|E] [E'|E']]|E]; rewrite ?E; rewrite ?E' in R; exact R.
  - rewrite F. exact R.
Qed.
Lemma Avail_YK m m' : YK m m' -> Avail n m -> Avail n m'.
Proof.
  intros [[A B [V1 V2]] F] R c' Fc' L Ch. destruct (find_ctrl m n) as [c|] eqn:Fc; [|congruence]. destruct F as (x & Fx & SC & Lx). assert (x = c') by congruence. subst x.
  destruct (R c Fc) as [O1 O2]; [congruence|rewrite <- (proj1 (proj2 SC)); exact Ch|]. unfold offered, refs_of, exps_of in *. split; intros ks k Gk Ik; [rewrite A in Gk; eapply V1|rewrite B in Gk; eapply V2]; eauto.
Qed.
(** the operations other than loading, configuring, cleaning up and unloading *)
Definition manages (o : cop) : bool := match o with CLoad _ _ | CUnload _ | CCleanup _ | CConfigure _ _ => true | _ => false end.
Lemma step_XR m o m' out : names_ok (cm_rm m) -> cstep e allow m o = Val (m', out) -> manages o = false -> XR m m'.
Proof.
  intros NK H Mo. unfold cstep in H. eapply XR_trans; [apply (XR_emit e n m EvOp)|]. set (m0 := emit m EvOp) in *. assert (NK0 : names_ok (cm_rm m0)) by exact NK.
  destruct o; try discriminate Mo; cbv zeta in H.
  - unfold serviced in H. destruct (cm_pend m0); [injection H as <- _; apply XR_refl|]. apply bind_val in H. destruct H as ((m1 & o1) & H1 & H). injection H as <- _. eapply request_XR. exact H1.
  - destruct (cm_pend m0) as [p|]; [|injection H as <- _; apply XR_refl]. destruct (p_done p); [injection H as <- _; apply XR_refl|].
    apply bind_val in H. destruct H as (m1 & H1 & H). injection H as <- _. eapply XR_trans; [eapply manage_XR; exact H1|apply XR_same; reflexivity].
  - destruct (cm_pend m0) as [p|]; [|injection H as <- _; apply XR_refl]. destruct (p_done p); injection H as <- _; [apply XR_refl|apply XR_same; reflexivity].
  - destruct (cm_pend m0) as [p|]; [|injection H as <- _; apply XR_refl]. destruct (p_done p); [|injection H as <- _; apply XR_refl].
    assert (Em : m' = set_pend (set_ctrls m0 (map (refresh_claimed (cm_rm m0)) (cm_ctrls m0))) None) by (unfold to_out, evaluate in H; cbn [fst snd] in H; congruence). rewrite Em. clear Em H.
    apply XR_of.
    + constructor; try reflexivity. assert (X : find_ctrl (set_pend (set_ctrls m0 (map (refresh_claimed (cm_rm m0)) (cm_ctrls m0))) None) n = option_map (refresh_claimed (cm_rm m0)) (find_ctrl m0 n)) by apply CmOutcome.find_refresh.
      rewrite X. destruct (find_ctrl m0 n) as [c|]; [|reflexivity]. cbn [option_map].
      eexists. split; [reflexivity|]. split; [unfold same_const; cbn; auto 8|intros _; right; reflexivity].
    + intros c c' Fc Fc'. unfold find_ctrl in *. cbn [set_pend set_ctrls cm_ctrls] in Fc'. rewrite CmOutcome.find_refresh, Fc in Fc'. cbn [option_map] in Fc'. injection Fc' as <-. cbn. auto.
    + intros _. apply kept_same; reflexivity.
  - injection H as <- _. apply read_XR. exact NK0.
  - apply bind_val in H. destruct H as (m1 & H1 & H). injection H as <- _. eapply update_XR. exact H1.
  - injection H as <- _. apply write_XR. exact NK0.
  - pose proof (sethw_XR e n m0 h target NK0) as X. destruct (set_component_state e (cm_rm m0) h target) as [r1 ok]. cbn [fst] in X. injection H as <- _. exact X.
Qed.
(** the ones that manage another controller *)
Definition subject (o : cop) : name := match o with CLoad c _ => c_name c | CUnload k | CCleanup k | CConfigure k _ => k | _ => ""%string end.
Lemma step_YK m o m' out : G (emit m EvOp) -> cstep e allow m o = Val (m', out) -> manages o = true -> subject o <> n -> YK m m'.
Proof.
  intros HG H Mo N. unfold cstep in H. eapply YK_trans; [apply (YK_same n m (emit m EvOp)); [apply SK_quiet; apply q_emit|reflexivity]|]. set (m0 := emit m EvOp) in *.
  assert (R : YK m0 m0) by (apply YK_same; [apply SK_refl|reflexivity]).
  destruct o; try discriminate Mo; cbv zeta in H; unfold serviced in H; (destruct (cm_pend m0); [injection H as <- _; exact R|]); cbn [subject] in N.
  - injection H as <- _. apply load_YK. exact N.
  - injection H as <- _. apply unload_YK. exact N.
  - injection H as <- _. apply cleanup_YK. exact N.
  - apply bind_val in H. destruct H as ((m1 & b) & H1 & H). injection H as <- _. cbn [fst]. eapply (configure_YK e allow n); [exact N|exact HG|exact H1].
Qed.
Lemma G_step m o m' out : cstep e allow m o = Val (m', out) -> G m -> G m'.
Proof. intros H HG. eapply (G_steps e allow); [|exact HG]. eapply cstep_steps; [..|exact H]; try exact I. apply HG. Qed.
Lemma nd_step m o m' out : cstep e allow m o = Val (m', out) -> G m -> nd (cm_rm m) -> nd (cm_rm m').
Proof.
  intros H HG D. assert (S : steps e allow any_kind m m') by (eapply cstep_steps; [..|exact H]; try exact I; apply HG).
  assert (X : RI (cm_rm m') /\ nd (cm_rm m')); [|exact (proj2 X)]. revert S. apply (steps_inv e allow any_kind (fun m => RI (cm_rm m) /\ nd (cm_rm m))); [|split; [apply HG|exact D]].
  intros a b [A B] P. split; [eapply prim_RI; eassumption|eapply prim_nd; eassumption].
Qed.
Lemma G_op m : G m -> G (emit m EvOp).
Proof. intros HG. eapply (G_steps e allow); [|exact HG]. apply steps_prim. apply p_emit. intros h []. Qed.
Lemma step_Reg m o m' out : steady e n -> cleans e n -> G m -> nd (cm_rm m) -> Reg m -> cstep e allow m o = Val (m', out) -> Reg m'.
Proof.
  intros S C HG D R H. destruct (manages o) eqn:Mo.
  - destruct (string_dec (subject o) n) as [E|N]; [|eapply Reg_YK; [eapply step_YK; [apply G_op; exact HG|eassumption..]|exact R]].
    pose proof (G_op m HG) as HG0. unfold cstep in H. set (m0 := emit m EvOp) in *. assert (R0 : Reg m0) by exact R.
    destruct o; try discriminate Mo; cbv zeta in H; unfold serviced in H; (destruct (cm_pend m0); [injection H as <- _; exact R0|]); cbn [subject] in E; try rewrite E in H.
    + injection H as <- _. apply load_Reg; assumption.
    + injection H as <- _. apply unload_Reg; try assumption. apply HG0.
    + injection H as <- _. apply cleanup_Reg; assumption.
    + apply bind_val in H. destruct H as ((m1 & b) & H1 & H). injection H as <- _. cbn [fst]. eapply configure_Reg; [exact S|exact C|exact HG0|exact D|exact R0|exact H1].
  - eapply Reg_XW; [exact S| |exact R]. apply xr_w. eapply step_XR; [apply HG|exact H|exact Mo].
Qed.
Lemma step_Avail m o m' out : deactivates e n -> G m -> Avail n m -> cstep e allow m o = Val (m', out) -> Avail n m'.
Proof.
  intros D HG V H. destruct (manages o) eqn:Mo.
  - destruct (string_dec (subject o) n) as [E|N]; [|eapply Avail_YK; [eapply step_YK; [apply G_op; exact HG|eassumption..]|exact V]].
    pose proof (G_op m HG) as HG0. intros c' Fc' L Ch.
    assert (SN : steps e allow no_up (emit m EvOp) m').
    { unfold cstep in H. set (m0 := emit m EvOp) in *. assert (ND : NoDup (map c_name (cm_ctrls m0))) by apply HG0.
      destruct o; try discriminate Mo; cbv zeta in H; unfold serviced in H; (destruct (cm_pend m0); [injection H as <- _; apply s_refl|]).
      - injection H as <- _. apply load_steps. discriminate.
      - injection H as <- _. apply unload_steps; try discriminate; exact ND.
      - injection H as <- _. apply cleanup_controller_steps. discriminate.
      - apply bind_val in H. destruct H as ((m1 & b) & H1 & H). injection H as <- _. cbn [fst]. eapply configure_steps; [..|exact H1]; discriminate. }
    destruct (steps_na e allow no_up (emit m EvOp) m') as [_ NA]; [intros X; exact (X eq_refl)|apply HG0|exact SN|].
    destruct (NA c' (find_in_In _ _ _ Fc') L) as (c & Ic & SC & Lc).
    assert (Fc : find_ctrl m n = Some c).
    { pose proof (find_in_name _ _ _ Fc') as Nm. rewrite (proj1 SC) in Nm. pose proof (find_of_NI (emit m EvOp) c (proj2 (proj2 HG0)) Ic) as X. rewrite Nm in X. exact X. }
    assert (Em : m' = emit m EvOp).
    { unfold cstep in H. set (m0 := emit m EvOp) in *. assert (Fc0 : find_ctrl m0 n = Some c) by exact Fc.
      destruct o; try discriminate Mo; cbv zeta in H; unfold serviced in H; (destruct (cm_pend m0); [injection H as <- _; reflexivity|]); cbn [subject] in E; subst.
      - injection H as <- _. unfold load_controller. rewrite Fc0. reflexivity.
      - injection H as <- _. unfold unload_controller. rewrite Fc0. unfold is_lc. rewrite Lc. reflexivity.
      - injection H as <- _. unfold cleanup_controller. rewrite Fc0, Lc. reflexivity.
      - unfold configure_controller in H. rewrite Fc0, Lc in H. cbn in H. injection H as <- _. reflexivity. }
    subst m'. apply (V c Fc Lc). rewrite <- (proj1 (proj2 SC)). exact Ch.
  - pose proof (step_XR m o m' out (i_names _ (proj1 HG)) H Mo) as X. apply (xr_av _ _ _ _ X D); [|exact V]. apply Dis_of; [apply HG|apply HG].
Qed.
Record HI (m : cm) : Prop := { hi_g : G m; hi_nd : nd (cm_rm m); hi_reg : steady e n -> cleans e n -> Reg m; hi_av : deactivates e n -> Avail n m }.
Lemma reach_HI hs ops m : wf_hw hs -> crun e allow (cm_start hs) ops = Val m -> HI m.
Proof.
  intros W. assert (S0 : HI (cm_start hs)).
  { assert (X : XI (cm_start hs)) by (apply (reach_XI e allow hs [] (cm_start hs) W); reflexivity).
    constructor.
    - split; [apply X|]. split; [apply X|]. split; [constructor|intros ? []].
    - cbn. split; constructor.
    - intros _ _. unfold CmExport4.Reg. cbn. split; reflexivity.
    - intros _ c F. discriminate F. }
  revert S0. generalize (cm_start hs). unfold crun. induction ops as [|o ops IH]; intros m0 H0 H; cbn [rfold] in H; [injection H as <-; exact H0|].
  apply bind_val in H. destruct H as (m1 & H1 & H). apply bind_val in H1. destruct H1 as ((m1' & out) & H1 & E). injection E as ->. apply (IH m1); [|exact H].
  destruct H0 as [A B C D]. constructor.
  - eapply G_step; eassumption.
  - eapply nd_step; eassumption.
  - intros S K. eapply step_Reg; try eassumption. exact (C S K).
  - intros K. eapply step_Avail; try eassumption. exact (D K).
Qed.
End Hist.
