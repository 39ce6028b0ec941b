(** CmExport4.v -- what loading, configuring, cleaning up and unloading a controller do to its own exports, and the
    invariants over whole histories. *)
From Coq Require Import Lia Permutation.
From Verif Require Import Base Events HwModel RmModel RmSys RmSpec RmSpec2 HwProofs RmProofs RmInv RmAvail RmMode RmExact ChainModel CmModel CmPrim ChainSpec CmTopo CmInv CmSpec CmReach CmSwitch CmOutcome CmLoad CmIntact FollowSpec UpdateSpec CmDeact CmErr CmFallback LifeSpec CmLife CmRefs DoneSpec CmDone CmCycle ExportSpec CmExport CmExport2 CmExport3.
Open Scope list_scope.

(** no name is listed as available twice *)
Lemma fold_nd {B} (f : rm * B -> name -> rm * B) l : (forall r b n, names_ok r -> evolve r (fst (f (r, b) n))) -> (forall r b n, names_ok r -> nd r -> nd (fst (f (r, b) n))) ->
  forall r b, names_ok r -> nd r -> nd (fst (fold_left f l (r, b))).
Proof.
  intros E H. induction l as [|n l IH]; intros r b NK D; cbn [fold_left]; [exact D|].
  pose proof (E r b n NK) as E1. pose proof (H r b n NK D) as H1. destruct (f (r, b) n) as [r1 b1]. cbn [fst] in *. apply IH; [eapply names_ok_evolve; eassumption|exact H1].
Qed.
Lemma nd_same r r' : rm_avc r' = rm_avc r -> rm_avs r' = rm_avs r -> nd r -> nd r'.
Proof. intros A B [C D]. split; congruence. Qed.
Lemma prim_nd e allow KS m m' : RI (cm_rm m) -> prim e allow KS m m' -> nd (cm_rm m) -> nd (cm_rm m').
Proof.
  intros HR P H. pose proof (i_names _ HR) as NK. destruct P; cbn [upd set_ctrls set_rm set_topo set_pend cm_rm emit]; try exact H.
  - unfold rm_read. apply fold_nd; [| |exact NK|exact H].
    + intros. apply (on_ev n). apply read_one_only. assumption.
    + intros r b n N D. exact (ao_nd _ _ _ _ (read_one_avok e r b n N) D).
  - unfold rm_write. apply fold_nd; [| |exact NK|exact H].
    + intros. apply (on_ev n). apply write_one_only. assumption.
    + intros r b n N D. exact (ao_nd _ _ _ _ (write_one_avok e r b n N) D).
  - exact (ao_nd _ _ _ _ (set_state_avok e (cm_rm m) h t NK) H).
  - destruct (rm_prepare_av e allow (cm_rm m) a d). eapply nd_same; eassumption.
  - destruct (rm_perform_av e allow (cm_rm m) a d). eapply nd_same; eassumption.
  - match goal with Q : make_refs_available _ _ = _ |- _ => unfold make_refs_available in Q; destruct (aget _ _); [|discriminate]; injection Q as <- end. destruct H. split; cbn; [assumption|apply NoDup_add_items; assumption].
  - match goal with Q : make_refs_unavailable _ _ = _ |- _ => unfold make_refs_unavailable in Q; destruct (aget _ _); [|discriminate]; injection Q as <- end. destruct H. split; cbn; [assumption|apply remove_items_spec; assumption].
  - match goal with Q : make_exps_available _ _ = _ |- _ => unfold make_exps_available in Q; destruct (aget _ _); [|discriminate]; injection Q as <- end. destruct H. split; cbn; [apply NoDup_add_items; assumption|assumption].
  - match goal with Q : make_exps_unavailable _ _ = _ |- _ => unfold make_exps_unavailable in Q; destruct (aget _ _); [|discriminate]; injection Q as <- end. destruct H. split; cbn; [apply remove_items_spec; assumption|assumption].
  - destruct (cache_av n ks (cm_rm m)). eapply nd_same; eassumption.
  - unfold import_refs. pose proof (CmExport3.add_cmd_av (c_refs c) (cm_rm m)) as [V1 V2]. destruct (add_cmd_itfs _ _) as [r1 []]; eapply nd_same; [exact V1|exact V2|exact H|exact V1|exact V2|exact H].
  - unfold import_exps. pose proof (CmExport3.add_state_av (c_exps c) (cm_rm m)) as (V1 & V2 & _). destruct (add_state_itfs _ _) as [r1 ad]. eapply nd_same; [exact V1|exact V2|exact H].
  - assert (E : rm_avc (remove_exps (cm_rm m) n) = rm_avc (cm_rm m) /\ rm_avs (remove_exps (cm_rm m) n) = rm_avs (cm_rm m)) by (unfold remove_exps; destruct (aget _ _); split; reflexivity).
    destruct E as [E1 E2]. unfold remove_refs. destruct (aget _ _); (eapply nd_same; [exact E1|exact E2|exact H]).
  - destruct (q_release (c_cloans c) (cm_rm m)) as (_ & _ & A & B). eapply nd_same; eassumption.
  - match goal with Q : claim_all _ _ _ = _ |- _ => destruct (claim_all_avs _ _ _ _ _ Q) as [A B] end. destruct (q_release (c_cloans c) r1) as (_ & _ & A' & B'). eapply nd_same; [rewrite A'; exact A|rewrite B'; exact B|exact H].
  - match goal with Q : claim_all _ _ _ = _ |- _ => destruct (claim_all_avs _ _ _ _ _ Q) as [A B] end. destruct (q_release (c_cloans c) r1) as (_ & _ & A' & B'). eapply nd_same; [rewrite A'; exact A|rewrite B'; exact B|exact H].
  - match goal with Q : claim_all _ _ _ = _ |- _ => destruct (claim_all_avs _ _ _ _ _ Q) as [A B] end. destruct (q_trans _ _ _ (q_release (c_cloans c) r1) (q_release cl _)) as (_ & _ & A' & B'). eapply nd_same; [rewrite A'; exact A|rewrite B'; exact B|exact H].
  - match goal with Q : claim_all _ _ _ = _ |- _ => destruct (claim_all_avs _ _ _ _ _ Q) as [A B] end. destruct (q_trans _ _ _ (q_release (c_cloans c) r1) (q_release cl _)) as (_ & _ & A' & B'). eapply nd_same; [rewrite A'; exact A|rewrite B'; exact B|exact H].
  - match goal with Q : claim_all _ _ _ = _ |- _ => destruct (claim_all_avs _ _ _ _ _ Q) as [A B] end. eapply nd_same; eassumption.
  - match goal with Q : claim_all _ _ _ = _ |- _ => destruct (claim_all_avs _ _ _ _ _ Q) as [A B] end. destruct (q_release cl r1) as (_ & _ & A' & B'). eapply nd_same; [rewrite A'; exact A|rewrite B'; exact B|exact H].
  - match goal with HB : build_topology m = Val m', HO : reorder _ _ = Val m'' |- _ => rewrite (q_topo _ _ _ _ HB HO) end. exact H.
Qed.

Section Self.
Variables (e : env) (allow : bool) (n : name).
Notation nor m := (not_on_record m n).
Lemma nor_quiet m m' : quiet_rm (cm_rm m) (cm_rm m') -> nor m -> nor m'.
Proof. intros (A & B & _) [C D]. split; unfold refs_of, exps_of in *; congruence. Qed.
Lemma nor_remove m : nor (set_rm m (remove_refs (remove_exps (cm_rm m) n) n)).
Proof.
  assert (E : aget (rm_exps (remove_exps (cm_rm m) n)) n = None).
  { unfold remove_exps. destruct (aget (rm_exps (cm_rm m)) n) eqn:E; [|exact E]. cbn [with_exps with_skeys rm_exps]. rewrite aget_adel, String.eqb_refl. reflexivity. }
  unfold not_on_record, refs_of, exps_of. cbn [set_rm cm_rm]. revert E. generalize (remove_exps (cm_rm m) n). intros r E. unfold remove_refs. destruct (aget (rm_refs r) n) eqn:F; [|auto].
  cbn [with_refs with_cmap rm_refs rm_exps]. rewrite aget_adel, String.eqb_refl. auto.
Qed.
Lemma cleanup_exports_self m c : find_ctrl m n = Some c -> c_lc c <> Active -> (c_chainable c = false -> nor m) ->
  nor (cleanup_exports m n) /\ find_ctrl (cleanup_exports m n) n = Some c.
Proof.
  intros F A Hc. unfold cleanup_exports. rewrite F. assert (X : is_lc Active c = false) by (unfold is_lc; destruct (c_lc c); congruence || reflexivity). rewrite X. cbn [negb andb].
  destruct (c_chainable c); [split; [apply nor_remove|exact F]|split; [apply Hc; reflexivity|exact F]].
Qed.
Lemma transition_self m c cb from succ fail : steady e n -> find_ctrl m n = Some c -> from (c_lc c) = true ->
  exists c', find_ctrl (node_transition e m n cb from succ fail) n = Some c' /\ same_const c c' /\
    (c_lc c' = succ /\ e_ctrl e (rm_trace (cm_rm m)) n cb = CbSuccess \/ c_lc c' = fail /\ e_ctrl e (rm_trace (cm_rm m)) n cb = CbFailure).
Proof.
  intros S F Fr. unfold node_transition. rewrite F, Fr. cbn [ctrl_call]. destruct (S (rm_trace (cm_rm m)) cb) as [S1 S2].
  destruct (e_ctrl e (rm_trace (cm_rm m)) n cb); try congruence; (eexists; split; [apply find_upd_same; [reflexivity|exact F]|]); rewrite String.eqb_refl; cbn; (split; [unfold same_const; cbn; auto 8|auto]).
Qed.
(** on_cleanup of an inactive controller *)
Lemma cleanup_spec_self m c : steady e n -> cleans e n -> find_ctrl m n = Some c -> c_lc c = Inactive -> (c_chainable c = false -> nor m) ->
  exists c', find_ctrl (fst (cleanup_spec e m n)) n = Some c' /\ same_const c c' /\ c_lc c' = Unconfigured /\ nor (fst (cleanup_spec e m n)) /\ snd (cleanup_spec e m n) = true.
Proof.
  intros S C F L Hc. destruct (cleanup_exports_self m c F) as [N F1]; [congruence|exact Hc|]. unfold cleanup_spec. cbv zeta. cbn [fst snd].
  destruct (transition_self (cleanup_exports m n) c Events.CCleanup (lc_eqb Inactive) Unconfigured Inactive S F1) as (c' & F' & SC & Q); [rewrite L; reflexivity|].
  fold (node_cleanup e (cleanup_exports m n) n) in F'. exists c'. split; [exact F'|]. split; [exact SC|].
  assert (LC : c_lc c' = Unconfigured) by (destruct Q as [[Q _]|[_ Q]]; [exact Q|rewrite C in Q; discriminate]).
  split; [exact LC|]. split; [eapply nor_quiet; [apply q_transition|exact N]|]. unfold has_lc. rewrite F'. unfold is_lc. rewrite LC. reflexivity.
Qed.
Definition Reg (m : cm) : Prop :=
  match find_ctrl m n with
  | None => nor m
  | Some c => match c_lc c with
              | Unconfigured => nor m
              | Inactive | Active => if c_chainable c then on_record m c else nor m
              | _ => False
              end
  end.
Lemma Reg_na m c : find_ctrl m n = Some c -> Reg m -> c_chainable c = false -> nor m.
Proof. unfold Reg. intros ->. destruct (c_lc c); try contradiction; try (intros H _; exact H); intros H C; rewrite C in H; exact H. Qed.
Lemma cleanup_Reg m : steady e n -> cleans e n -> Reg m -> Reg (fst (cleanup_controller e m n)).
Proof.
  intros S C R. unfold cleanup_controller. destruct (find_ctrl m n) as [c|] eqn:F; [|exact R]. pose proof (Reg_na m c F R) as NA.
  destruct (c_lc c) eqn:L; try exact R; try (unfold Reg in R; rewrite F, L in R; contradiction).
  destruct (cleanup_spec_self m c S C F L NA) as (c' & F' & _ & L' & N' & _). unfold Reg. rewrite F', L'. exact N'.
Qed.
Lemma unload_Reg m : steady e n -> cleans e n -> NoDup (map c_name (cm_ctrls m)) -> Reg m -> Reg (fst (unload_controller e m n)).
Proof.
  intros S C ND R. unfold unload_controller. destruct (find_ctrl m n) as [c|] eqn:F; [|exact R]. destruct (is_lc Active c) eqn:LA; [exact R|].
  pose proof (cleanup_Reg m S C R) as R1.
  assert (N1 : snd (cleanup_controller e m n) = true -> nor (fst (cleanup_controller e m n))).
  { unfold cleanup_controller. rewrite F. pose proof (Reg_na m c F R) as NA. destruct (c_lc c) eqn:L; try discriminate; try (unfold Reg in R; rewrite F, L in R; contradiction).
    - intros _. unfold Reg in R. rewrite F, L in R. exact R.
    - intros _. destruct (cleanup_spec_self m c S C F L NA) as (c' & _ & _ & _ & N' & _). exact N'. }
  destruct (cleanup_controller e m n) as [m1 ok]. cbn [fst snd] in *. destruct ok; cbn [negb]; [|exact R1]. specialize (N1 eq_refl). cbv zeta. cbn [fst].
  set (m2 := set_topo m1 _ _ _). set (m3 := if _ || _ then _ else m2).
  assert (N3 : nor m3).
  { assert (N2 : nor m2) by exact N1. unfold m3. destruct (_ || _); [|exact N2]. eapply nor_quiet; [apply q_shutdown|exact N2]. }
  assert (N4 : nor (release_itfs m3 n)) by (eapply nor_quiet; [apply q_release_itfs|exact N3]).
  unfold Reg. match goal with |- match ?x with _ => _ end => destruct x as [x0|] eqn:Fx end; [|exact N4]. exfalso.
  unfold find_ctrl in Fx. cbn [set_ctrls cm_ctrls] in Fx. pose proof (find_in_In _ _ _ Fx) as I. apply filter_In in I. destruct I as [_ I]. rewrite (find_in_name _ _ _ Fx), String.eqb_refl in I. discriminate.
Qed.
Lemma find_fresh l c : find_in l (c_name c) = None -> find_in (l ++ [fresh c]) (c_name c) = Some (fresh c).
Proof.
  unfold find_in. induction l as [|x l IH]; cbn; [rewrite String.eqb_refl; reflexivity|]. destruct (String.eqb (c_name x) (c_name c)); [discriminate|exact IH].
Qed.
Lemma load_Reg m c b : c_name c = n -> Reg m -> Reg (fst (load_controller m c b)).
Proof.
  intros E R. unfold load_controller. destruct (find_ctrl m (c_name c)) as [d|] eqn:F; [exact R|]. destruct b; [|exact R]. cbn [fst].
  unfold Reg in *. rewrite E in F. rewrite F in R. assert (X : find_in (cm_ctrls m ++ [fresh c]) n = Some (fresh c)) by (pose proof (find_fresh (cm_ctrls m) c) as X; rewrite E in X; apply X; exact F).
  unfold find_ctrl at 1. cbn [set_topo set_ctrls cm_ctrls]. rewrite X. exact R.
Qed.
Lemma import_self m es ks r1 : import_refs (cm_rm m) n ks = (r1, true) ->
  aget (rm_refs (import_exps r1 n es)) n = Some ks /\ exists ad, aget (rm_exps (import_exps r1 n es)) n = Some ad /\ incl ad es.
Proof.
  unfold import_refs. destruct (add_cmd_itfs ks (cm_rm m)) as [r2 []] eqn:E; [|discriminate]. intros [= <-].
  set (r3 := with_refs r2 (aset (rm_refs r2) n ks)). unfold import_exps. pose proof (CmExport3.add_state_av es r3) as (_ & _ & W). destruct (add_state_itfs es r3) as [r4 ad] eqn:E4. cbn [snd] in W.
  apply add_state_spec in E4. destruct E4 as (_ & _ & _ & F1 & F2 & _). cbn [with_exps rm_refs rm_exps]. rewrite F1. unfold r3. cbn [with_refs rm_refs]. rewrite !aget_aset_same. split; [reflexivity|]. exists ad. auto.
Qed.
Lemma un_self m m' : exports_unavailable m n = Val m' ->
  rm_refs (cm_rm m') = rm_refs (cm_rm m) /\ rm_exps (cm_rm m') = rm_exps (cm_rm m) /\ cm_ctrls m' = cm_ctrls m /\ (nd (cm_rm m) -> withdrawn m' n).
Proof.
  unfold exports_unavailable, make_exps_unavailable. intros H. destruct (aget (rm_exps (cm_rm m)) n) as [es|] eqn:E1; [|discriminate]. cbn [of_option bind] in H.
  unfold make_refs_unavailable in H. cbn [with_av rm_refs] in H. destruct (aget (rm_refs (cm_rm m)) n) as [ks|] eqn:E2; [|discriminate]. cbn [of_option bind] in H. injection H as <-.
  split; [reflexivity|]. split; [reflexivity|]. split; [reflexivity|]. intros [D1 D2]. split; unfold refs_of, exps_of; cbn [set_rm cm_rm with_av rm_refs rm_exps rm_avc rm_avs]; intros l k Gl I V.
  - assert (l = ks) by congruence. subst l. apply (proj2 (remove_items_spec ks _ D2)) in V. tauto.
  - assert (l = es) by congruence. subst l. apply (proj2 (remove_items_spec es _ D1)) in V. tauto.
Qed.
Lemma chained_find m b c : find_ctrl m n = Some c -> exists c', find_ctrl (set_chained e m n b) n = Some c' /\ same_const c c' /\ c_lc c' = c_lc c.
Proof.
  intros F. unfold set_chained. rewrite F. destruct (_ && _); [|exists c; split; [exact F|split; [apply same_const_refl|reflexivity]]]. cbv zeta. destruct (e_set_chained _ _ _ _).
  - eexists. split; [apply find_upd_same; [reflexivity|exact F]|]. rewrite String.eqb_refl. split; [unfold same_const; cbn; auto 8|reflexivity].
  - exists c. split; [exact F|split; [apply same_const_refl|reflexivity]].
Qed.
(** after a successful configuration the exports are on record and withdrawn *)
Lemma configure_self_ok m order m' : G m -> nd (cm_rm m) -> configure_controller e m n order = Val (m', true) ->
  exists c c', find_ctrl m n = Some c /\ find_ctrl m' n = Some c' /\ same_const c c' /\ c_lc c' = Inactive /\ (c_chainable c = true -> on_record m' c' /\ withdrawn m' n).
Proof.
  intros HG D H. unfold configure_controller in H. destruct (find_ctrl m n) as [c|] eqn:F; [|discriminate].
  assert (S1 : steps e allow any_kind m (fst (if is_lc Inactive c then cleanup_spec e m n else (m, true)))) by (destruct (is_lc Inactive c); [apply cleanup_spec_steps; exact I|apply s_refl]).
  assert (FR1 : frame n m (fst (if is_lc Inactive c then cleanup_spec e m n else (m, true)))) by (destruct (is_lc Inactive c); [apply frame_cleanup_spec|apply frame_refl]).
  destruct (if is_lc Inactive c then cleanup_spec e m n else (m, true)) as [m1 ok1]. cbn [fst] in *.
  destruct (lc_eqb (c_lc c) Active || lc_eqb (c_lc c) Finalized) eqn:L; [destruct (c_lc c); discriminate|].
  assert (H' : (if negb ok1 then Val (m1, false)
      else
        let m2 := node_configure e (cleanup_exports m1 n) n in
        if negb (has_lc m2 n Inactive) then Val (m2, false)
        else if c_chainable c && negb (exports_ok c) then Val (fst (cleanup_spec e m2 n), false)
        else
          do m3 <- (if c_chainable c then
                      let '(r1, ok) := import_refs (cm_rm m2) n (c_refs c) in
                      if negb ok then Crash
                      else
                        exports_unavailable (set_chained e (set_rm m2 (import_exps r1 n (c_exps c))) n false) n
                    else Val m2);
          if negb (uniqueb (cmd_names (cm_rm m3) c)) || negb (uniqueb (state_names (cm_rm m3) c))
          then Val (fst (cleanup_spec e m3 n), false)
          else
            do m4 <- build_topology m3;
            do m5 <- reorder m4 order;
            Val (m5, true)) = Val (m', true)) by (destruct (c_lc c); try exact H; discriminate L).
  clear H. destruct (negb ok1); [discriminate|]. cbv zeta in H'.
  assert (FR2 : frame n m (node_configure e (cleanup_exports m1 n) n)) by (eapply frame_trans; [exact FR1|]; eapply frame_trans; [apply frame_cleanup_exports|apply frame_transition]).
  assert (S2 : steps e allow any_kind m (node_configure e (cleanup_exports m1 n) n)).
  { eapply steps_trans; [exact S1|]. eapply steps_trans; [apply cleanup_exports_steps; exact I|apply node_configure_steps; exact I]. }
  set (m2 := node_configure e (cleanup_exports m1 n) n) in *.
  destruct (has_lc m2 n Inactive) eqn:HI; cbn [negb] in H'; [|discriminate].
  destruct (c_chainable c && negb (exports_ok c)); [discriminate|].
  apply bind_val in H'. destruct H' as (m3 & H3 & H).
  assert (F2 : exists c2, find_ctrl m2 n = Some c2 /\ c_lc c2 = Inactive) by (unfold has_lc in HI; destruct (find_ctrl m2 n) as [c2|]; [exists c2; split; [reflexivity|apply lc_eqb_eq; unfold is_lc in HI; destruct (c_lc c2); try discriminate HI; reflexivity]|discriminate]).
  destruct F2 as (c2 & F2 & L2). destruct (fr_const _ _ _ FR2 c2 F2) as (c0 & F0 & SC). assert (c0 = c) by congruence. subst c0. pose proof SC as (Q1 & Q2 & Q3 & Q4 & Q5 & Q6 & Q7).
  assert (X3 : exists c3, find_ctrl m3 n = Some c3 /\ same_const c c3 /\ c_lc c3 = Inactive /\ steps e allow any_kind m m3 /\ (c_chainable c = true -> on_record m3 c3 /\ withdrawn m3 n)).
  { destruct (c_chainable c) eqn:Ch; [|injection H3 as <-; exists c2; split; [exact F2|split; [exact SC|split; [exact L2|split; [exact S2|discriminate]]]]].
    pose proof (p_import_refs e allow any_kind m2 n c2 I F2) as K. rewrite Q6, Q2 in K. specialize (K eq_refl).
    destruct (import_refs (cm_rm m2) n (c_refs c)) as [r1 ok] eqn:IR. cbn [fst snd] in K. destruct ok; [|discriminate]. cbn [negb] in H3. specialize (K eq_refl).
    destruct (import_self m2 (c_exps c) (c_refs c) r1 IR) as [I1 (ad & I2 & I3)].
    set (ma := set_rm m2 (import_exps r1 n (c_exps c))) in *.
    assert (SA : steps e allow any_kind m ma).
    { eapply steps_trans; [exact S2|]. eapply steps_trans; [apply steps_prim; exact K|].
      change ma with (set_rm (set_rm m2 r1) (import_exps (cm_rm (set_rm m2 r1)) n (c_exps c))). rewrite <- Q7. apply steps_prim. apply p_import_exps; [exact I|exact F2|congruence]. }
    assert (SB : steps e allow any_kind m (set_chained e ma n false)) by (eapply steps_trans; [exact SA|apply set_chained_steps; exact I]).
    destruct (chained_find ma false c2 F2) as (c3 & F3 & S3 & L3).
    destruct (un_self _ _ H3) as (U1 & U2 & U3 & U4). destruct (q_chained e ma n false) as (V1 & V2 & _).
    assert (NDB : nd (cm_rm (set_chained e ma n false))).
    { assert (GD : RI (cm_rm (set_chained e ma n false)) /\ nd (cm_rm (set_chained e ma n false))); [|exact (proj2 GD)].
      revert SB. generalize (set_chained e ma n false). intros mb SB. revert SB. apply (steps_inv e allow any_kind (fun m => RI (cm_rm m) /\ nd (cm_rm m))); [|split; [apply HG|exact D]].
      intros a b [A B] P. split; [eapply prim_RI; eassumption|eapply prim_nd; eassumption]. }
    assert (F3' : find_ctrl m3 n = Some c3) by (unfold find_ctrl in *; rewrite U3; exact F3).
    exists c3. split; [exact F3'|]. split; [eapply same_const_trans; eassumption|]. split; [congruence|]. split; [eapply steps_trans; [exact SB|eapply exports_unavailable_steps; exact H3]|].
    intros _. split; [|apply U4; exact NDB]. unfold on_record, refs_of, exps_of. rewrite U1, U2, V1, V2. destruct (same_const_trans _ _ _ SC S3) as (R1 & _ & _ & _ & _ & R6 & R7).
    rewrite R1, R6, R7. pose proof (find_in_name _ _ _ F) as Nm. rewrite Nm. split; [exact I1|]. exists ad. split; [exact I2|exact I3]. }
  destruct X3 as (c3 & F3 & SC3 & L3 & S3 & X3).
  destruct (negb (uniqueb (cmd_names (cm_rm m3) c)) || negb (uniqueb (state_names (cm_rm m3) c))); [discriminate|].
  apply bind_val in H. destruct H as (m4 & H4 & H). apply bind_val in H. destruct H as (m5 & H5 & H). injection H as <-.
  assert (N3 : NI m3) by (apply (G_steps e allow _ _ S3 HG)).
  destruct (YK_topo n m3 m4 order m5 N3 H4 H5) as [_ YF]. rewrite F3 in YF. destruct YF as (c5 & F5 & SC5 & L5).
  exists c, c5. split; [reflexivity|]. split; [exact F5|]. split; [eapply same_const_trans; eassumption|]. split; [congruence|]. intros Ch. destruct (X3 Ch) as [(O1 & ad & O2 & O3) W].
  pose proof (q_topo m3 m4 order m5 H4 H5) as ER. split; [|unfold withdrawn, refs_of, exps_of in *; rewrite ER; exact W].
  destruct SC5 as (R1 & _ & _ & _ & _ & R6 & R7). unfold on_record, refs_of, exps_of in *. rewrite ER, R1, R6, R7. split; [exact O1|]. exists ad. auto.
Qed.
End Self.
