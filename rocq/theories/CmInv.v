(** CmInv.v -- invariants of the controller manager over every history. *)
From Coq Require Import Permutation.
From Verif Require Import Base Events HwModel RmModel RmSys RmSpec RmProofs RmInv ChainModel CmModel CmPrim ChainSpec CmTopo.

(** ---------------------------------------------------------------- the resource-manager part *)
Definition same_maps (r r' : rm) : Prop :=
  rm_hw r' = rm_hw r /\ rm_trace r' = rm_trace r /\ rm_ckeys r' = rm_ckeys r /\ rm_skeys r' = rm_skeys r /\
  rm_refs r' = rm_refs r /\ rm_exps r' = rm_exps r.
Lemma same_maps_refl r : same_maps r r. Proof. repeat split. Qed.
Lemma same_maps_trans a b c : same_maps a b -> same_maps b c -> same_maps a c.
Proof. unfold same_maps. intros (A1&A2&A3&A4&A5&A6) (B1&B2&B3&B4&B5&B6). repeat split; congruence. Qed.
Lemma release_maps ks : forall r, same_maps r (release_all r ks).
Proof.
  unfold release_all. induction ks as [|k ks IH]; intros r; cbn [fold_left]; [apply same_maps_refl|].
  eapply same_maps_trans; [|apply IH]. repeat split.
Qed.
Lemma claim_all_maps : forall ks r got r1 o, claim_all r ks got = Val (r1, o) -> same_maps r r1.
Proof.
  induction ks as [|k ks IH]; intros r got r1 o; cbn [claim_all]; [intros [= <- <-]; apply same_maps_refl|].
  destruct (cmd_claimed r k) as [[]|]; [intros [= <- <-]; apply release_maps| |discriminate].
  unfold claim_cmd. destruct (cmd_available r k); [|intros [= <- <-]; apply release_maps].
  destruct (aget (rm_claimed r) k) as [[]|]; try (intros [= <- <-]; apply release_maps).
  destruct (mem k (rm_ckeys r)).
  - intros H. apply IH in H. eapply same_maps_trans; [|exact H]. repeat split.
  - intros [= <- <-]. eapply same_maps_trans; [|apply release_maps]. repeat split.
Qed.
Lemma cache_maps c ks : forall r, same_maps r (cache_controller r c ks).
Proof.
  unfold cache_controller. induction ks as [|k ks IH]; intros r; cbn [fold_left]; [apply same_maps_refl|].
  eapply same_maps_trans; [|apply IH]. unfold cache_one. destruct (find _ _); repeat split.
Qed.

Record RI (r : rm) : Prop := { i_names : names_ok r; i_lives : Lives r; i_k : KInv r }.
Lemma RI_maps r r' : same_maps r r' -> RI r -> RI r'.
Proof.
  intros (A1&A2&A3&A4&A5&A6) [H1 H2 H3]. constructor.
  - unfold names_ok. rewrite A1. exact H1.
  - eapply Lives_same; [|exact H2]. split; assumption.
  - eapply KInv_ext; [..|exact H3]; try assumption. unfold statics. rewrite A1. reflexivity.
Qed.
Lemma RI_evolve r r' : evolve r r' -> RI r -> RI r'.
Proof.
  intros H [H1 H2 H3]. constructor.
  - eapply names_ok_evolve; eassumption.
  - apply (ev_lives _ _ H). exact H2.
  - eapply KInv_ext; [..|exact H3]; [apply evolve_statics; exact H|apply (ev_ckeys _ _ H)|apply (ev_skeys _ _ H)|
      apply (ev_refs _ _ H)|apply (ev_exps _ _ H)].
Qed.
Definition quiet (ev : event) : Prop := forall h, ~ match ev with
       EvHwCb h' _ _ | EvHwErr h' _ | EvRead h' _ | EvWrite h' _ | EvPrepare h' _ _ _ | EvPerform h' _ _ _ => h' = h
       | _ => False end.
Lemma RI_emit r ev : quiet ev -> RI r -> RI (with_trace r (ev :: rm_trace r)).
Proof.
  intros Q [H1 H2 H3]. constructor.
  - exact H1.
  - intros n h F. cbn [with_trace rm_trace lives]. rewrite (H2 n h F).
    destruct ev; cbn [life]; try reflexivity; exfalso; exact (Q _ eq_refl).
  - eapply KInv_ext; [..|exact H3]; reflexivity.
Qed.
Lemma RI_import_refs r c ks : RI r -> RI (fst (import_refs r c ks)).
Proof.
  intros [H1 H2 H3].
  assert (HS : hw_same r (fst (import_refs r c ks))) by apply hw_same_import_refs.
  constructor.
  - unfold names_ok. rewrite (proj1 HS). exact H1.
  - eapply Lives_same; eassumption.
  - unfold import_refs. destruct (add_cmd_KInv ks r H3) as (A & B & B' & C).
    destruct (add_cmd_itfs ks r) as [r1 ok]. cbn [fst snd] in *.
    destruct ok; [|exact A]. cbn [fst]. destruct A as [A1 A2 A3 A4 A5 A6].
    constructor; simpl; auto.
    intros c0 ks0 k. rewrite aget_aset. destruct (String.eqb c0 c).
    + intros X; inversion X; subst ks0. intros Hk. unfold hw_cmds. simpl. rewrite B. apply C; auto.
    + apply A3.
Qed.
Lemma RI_import_exps r c ks : RI r -> RI (import_exps r c ks).
Proof.
  intros [H1 H2 H3].
  assert (HS : hw_same r (import_exps r c ks)) by apply hw_same_import_exps.
  constructor.
  - unfold names_ok. rewrite (proj1 HS). exact H1.
  - eapply Lives_same; eassumption.
  - unfold import_exps. destruct (add_state_KInv ks r H3) as (A & B & B' & C).
    destruct (add_state_itfs ks r) as [r1 added]. simpl in *.
    destruct A as [A1 A2 A3 A4 A5 A6]. constructor; simpl; auto.
    intros c0 ks0 k. rewrite aget_aset. destruct (String.eqb c0 c).
    + intros X; inversion X; subst ks0. intros Hk. unfold hw_states. simpl. rewrite B. apply C; auto.
    + apply A4.
Qed.
Lemma RI_remove_refs r c : RI r -> RI (remove_refs r c).
Proof.
  intros [H1 H2 H3].
  assert (HS : hw_same r (remove_refs r c)) by apply hw_same_remove_refs.
  constructor.
  - unfold names_ok. rewrite (proj1 HS). exact H1.
  - eapply Lives_same; eassumption.
  - unfold remove_refs. destruct (aget (rm_refs r) c) as [ks|] eqn:E; [|exact H3].
    destruct H3 as [A1 A2 A3 A4 A5 A6]. constructor; simpl; auto.
    + intros k Hk. apply remove_items_keep; [|apply A1; exact Hk].
      intro Hc. exact (A3 c ks k E Hc Hk).
    + intros c0 ks0 k. rewrite aget_adel. destruct (String.eqb c0 c); [discriminate|]. apply A3.
    + apply remove_items_spec. exact A5.
Qed.
Lemma RI_remove_exps r c : RI r -> RI (remove_exps r c).
Proof.
  intros [H1 H2 H3].
  assert (HS : hw_same r (remove_exps r c)) by apply hw_same_remove_exps.
  constructor.
  - unfold names_ok. rewrite (proj1 HS). exact H1.
  - eapply Lives_same; eassumption.
  - unfold remove_exps. destruct (aget (rm_exps r) c) as [ks|] eqn:E; [|exact H3].
    destruct H3 as [A1 A2 A3 A4 A5 A6]. constructor; simpl; auto.
    + intros k Hk. apply remove_items_keep; [|apply A2; exact Hk].
      intro Hc. exact (A4 c ks k E Hc Hk).
    + intros c0 ks0 k. rewrite aget_adel. destruct (String.eqb c0 c); [discriminate|]. apply A4.
    + apply remove_items_spec. exact A6.
Qed.

(** the primitive steps that only move the resource manager *)
Lemma av_maps r s c : same_maps r (with_av r s c). Proof. repeat split. Qed.
Lemma refs_av_maps r n r' : make_refs_available r n = Some r' -> same_maps r r' /\ rm_claimed r' = rm_claimed r.
Proof. unfold make_refs_available. destruct (aget _ _); [|discriminate]. intros [= <-]. split; [apply av_maps|reflexivity]. Qed.
Lemma refs_un_maps r n r' : make_refs_unavailable r n = Some r' -> same_maps r r' /\ rm_claimed r' = rm_claimed r.
Proof. unfold make_refs_unavailable. destruct (aget _ _); [|discriminate]. intros [= <-]. split; [apply av_maps|reflexivity]. Qed.
Lemma exps_av_maps r n r' : make_exps_available r n = Some r' -> same_maps r r' /\ rm_claimed r' = rm_claimed r.
Proof. unfold make_exps_available. destruct (aget _ _); [|discriminate]. intros [= <-]. split; [apply av_maps|reflexivity]. Qed.
Lemma exps_un_maps r n r' : make_exps_unavailable r n = Some r' -> same_maps r r' /\ rm_claimed r' = rm_claimed r.
Proof. unfold make_exps_unavailable. destruct (aget _ _); [|discriminate]. intros [= <-]. split; [apply av_maps|reflexivity]. Qed.

Lemma prim_RI e allow KS m m' : RI (cm_rm m) -> prim e allow KS m m' -> RI (cm_rm m').
Proof.
  intros H P. destruct P; cbn [upd set_ctrls set_rm set_topo set_pend cm_rm emit]; try exact H.
  - apply RI_emit; assumption.
  - eapply RI_evolve; [apply rm_read_evolve; apply H|exact H].
  - eapply RI_evolve; [apply rm_write_evolve; apply H|exact H].
  - destruct (set_component_state_ok e (cm_rm m) h t (i_names _ H)) as [[E _ _] _]. eapply RI_evolve; [exact E|exact H].
  - destruct (rm_prepare_evolve e allow (cm_rm m) a d (i_names _ H)) as [E _]. eapply RI_evolve; [exact E|exact H].
  - destruct (rm_perform_evolve e allow (cm_rm m) a d (i_names _ H)) as [E _]. eapply RI_evolve; [exact E|exact H].
  - eapply RI_maps; [eapply refs_av_maps; eassumption|exact H].
  - eapply RI_maps; [eapply refs_un_maps; eassumption|exact H].
  - eapply RI_maps; [eapply exps_av_maps; eassumption|exact H].
  - eapply RI_maps; [eapply exps_un_maps; eassumption|exact H].
  - eapply RI_maps; [apply cache_maps|exact H].
  - apply RI_import_refs. exact H.
  - apply RI_import_exps. exact H.
  - apply RI_remove_refs. apply RI_remove_exps. exact H.
  - eapply RI_maps; [apply release_maps|exact H].
  - eapply RI_maps; [|exact H]. eapply same_maps_trans; [eapply claim_all_maps; eassumption|apply release_maps].
  - eapply RI_maps; [|exact H]. eapply same_maps_trans; [eapply claim_all_maps; eassumption|apply release_maps].
  - eapply RI_maps; [|exact H]. eapply same_maps_trans; [eapply claim_all_maps; eassumption|].
    eapply same_maps_trans; apply release_maps.
  - eapply RI_maps; [|exact H]. eapply same_maps_trans; [eapply claim_all_maps; eassumption|].
    eapply same_maps_trans; apply release_maps.
  - eapply RI_maps; [eapply claim_all_maps; eassumption|exact H].
  - eapply RI_maps; [|exact H]. eapply same_maps_trans; [eapply claim_all_maps; eassumption|apply release_maps].
  - unfold build_topology in *. apply bind_val in H1. destruct H1 as ([[s rc] sc] & _ & E). injection E as <-.
    unfold reorder in H2. apply bind_val in H2. destruct H2 as (names & _ & E). injection E as <-. exact H.
Qed.

(** ---------------------------------------------------------------- static hardware *)
Lemma prim_statics e allow KS m m' : RI (cm_rm m) -> prim e allow KS m m' -> statics (cm_rm m') = statics (cm_rm m).
Proof.
  assert (M : forall r r', same_maps r r' -> statics r' = statics r).
  { intros r r' (A & _). unfold statics. rewrite A. reflexivity. }
  assert (S : forall r r', hw_same r r' -> statics r' = statics r).
  { intros r r' (A & _). unfold statics. rewrite A. reflexivity. }
  intros H P. destruct P; cbn [upd set_ctrls set_rm set_topo set_pend cm_rm emit]; try reflexivity.
  - apply evolve_statics. apply rm_read_evolve; apply H.
  - apply evolve_statics. apply rm_write_evolve; apply H.
  - destruct (set_component_state_ok e (cm_rm m) h t (i_names _ H)) as [[E _ _] _]. apply evolve_statics. exact E.
  - destruct (rm_prepare_evolve e allow (cm_rm m) a d (i_names _ H)) as [E _]. apply evolve_statics. exact E.
  - destruct (rm_perform_evolve e allow (cm_rm m) a d (i_names _ H)) as [E _]. apply evolve_statics. exact E.
  - apply M. eapply refs_av_maps; eassumption.
  - apply M. eapply refs_un_maps; eassumption.
  - apply M. eapply exps_av_maps; eassumption.
  - apply M. eapply exps_un_maps; eassumption.
  - apply M. apply cache_maps.
  - apply S. apply hw_same_import_refs.
  - apply S. apply hw_same_import_exps.
  - apply S. eapply hw_same_trans; [apply hw_same_remove_exps|apply hw_same_remove_refs].
  - apply M. apply release_maps.
  - apply M. eapply same_maps_trans; [eapply claim_all_maps; eassumption|apply release_maps].
  - apply M. eapply same_maps_trans; [eapply claim_all_maps; eassumption|apply release_maps].
  - apply M. eapply same_maps_trans; [eapply claim_all_maps; eassumption|]. eapply same_maps_trans; apply release_maps.
  - apply M. eapply same_maps_trans; [eapply claim_all_maps; eassumption|]. eapply same_maps_trans; apply release_maps.
  - apply M. eapply claim_all_maps; eassumption.
  - apply M. eapply same_maps_trans; [eapply claim_all_maps; eassumption|apply release_maps].
  - unfold build_topology in *. apply bind_val in H1. destruct H1 as ([[s rc] sc] & _ & E). injection E as <-.
    unfold reorder in H2. apply bind_val in H2. destruct H2 as (names & _ & E). injection E as <-. reflexivity.
Qed.

(** ---------------------------------------------------------------- loans follow the life cycle *)
Definition idle (c : ctrl) : Prop := c_lc c <> Active -> c_cloans c = [] /\ c_sloans c = [].
Definition LI (m : cm) : Prop := forall c, In c (cm_ctrls m) -> idle c.

(** a step that maps the controllers of one name *)
Lemma LI_upd m n f : LI m -> (forall c, In c (cm_ctrls m) -> c_name c = n -> idle (f c)) -> LI (upd m n f).
Proof.
  intros H Hf c Hc. cbn [upd set_ctrls cm_ctrls] in Hc. apply In_upd in Hc.
  destruct Hc as [[Hc _]|(c0 & Hc & Hn & ->)]; [apply H; exact Hc|apply Hf; assumption].
Qed.
Lemma LI_same m m' : cm_ctrls m' = cm_ctrls m -> LI m -> LI m'.
Proof. intros E H c Hc. apply H. rewrite <- E. exact Hc. Qed.

Lemma reorder_members m m' order m'' : NI m -> build_topology m = Val m' -> reorder m' order = Val m'' ->
  forall c', In c' (cm_ctrls m'') -> exists c g, In c (cm_ctrls m) /\ c' = upd_group g c.
Proof.
  intros HN HB HR c' Hc'. destruct (build_topology_spec m m' (proj2 HN) HB) as (s & rc & sc & -> & K & _).
  assert (H' : NI (set_topo m s rc sc)).
  { split; [exact (proj1 HN)|]. intros n Hn. apply K. apply (proj2 HN). exact Hn. }
  destruct (reorder_spec _ _ _ H' HR) as (names & L & _ & -> & _ & _ & M).
  destruct (M c' Hc') as (c & Hc & ->). eauto.
Qed.

Lemma find_same l n c c0 : NoDup (map c_name l) -> find_in l n = Some c -> In c0 l -> c_name c0 = n -> c0 = c.
Proof. intros ND F H E. pose proof (NoDup_find l c0 ND H) as F0. congruence. Qed.

Lemma prim_LI e allow KS m m' : NI m -> LI m -> prim e allow KS m m' -> LI m'.
Proof.
  intros HN HL P. pose proof (proj1 HN) as ND.
  destruct P; try (eapply LI_same; [reflexivity|exact HL]).
  - apply LI_upd; [exact HL|]. intros c0 Hx E. assert (c0 = c) by (eapply find_same; eassumption). subst.
    intros _. apply (HL c Hx). assumption.
  - apply LI_upd; [exact HL|]. intros c0 Hx E _. split; reflexivity.
  - apply LI_upd; [exact HL|]. intros c0 Hx E C. exfalso. apply C. reflexivity.
  - apply LI_upd; [exact HL|]. intros c0 Hx E C. exfalso. apply C. assert (c0 = c) by (eapply find_same; eassumption).
    subst. assumption.
  - apply LI_upd; [exact HL|]. intros c0 Hx E _. split; reflexivity.
  - apply LI_upd; [exact HL|]. intros c0 Hx E _. split; reflexivity.
  - apply LI_upd; [exact HL|]. intros c0 Hx E. exact (HL c0 Hx).
  - intros c0 Hc. cbn [set_topo set_ctrls cm_ctrls] in Hc. apply in_app_iff in Hc. destruct Hc as [Hc|[<-|[]]]; [apply HL; exact Hc|].
    intros _. split; reflexivity.
  - intros c0 Hc. cbn [set_topo set_ctrls cm_ctrls] in Hc. apply filter_In in Hc. apply HL. exact (proj1 Hc).
  - intros c' Hc. destruct (reorder_members _ _ _ _ HN H0 H1 c' Hc) as (c & g & Hin & ->). exact (HL c Hin).
  - intros c0 Hc. cbn [set_ctrls cm_ctrls] in Hc. apply in_map_iff in Hc. destruct Hc as (c & <- & Hin). exact (HL c Hin).
Qed.

(** ---------------------------------------------------------------- active controllers hold their interfaces *)
Lemma claim_all_got : forall ks r got r1 cl, claim_all r ks got = Val (r1, Some cl) -> cl = got ++ ks.
Proof.
  induction ks as [|k ks IH]; intros r got r1 cl; cbn [claim_all]; [intros [= <- <-]; symmetry; apply app_nil_r|].
  destruct (cmd_claimed r k) as [[]|]; [discriminate| |discriminate].
  destruct (claim_cmd r k) as [r2 []]; [|discriminate]. intros H. apply IH in H. rewrite H, <- app_assoc. reflexivity.
Qed.

(** what the configuration demands by name *)
Definition demands (cfg : icfg) (held : list name) : Prop := forall ks, cfg = IIndividual ks -> held = ks.
Definition holds (c : ctrl) : Prop := c_lc c = Active -> demands (c_cmd c) (c_cloans c) /\ demands (c_state c) (c_sloans c).

Lemma prim_holds e allow KS m m' n : (forall t, e_ctrl e t n CDeactivate <> CbFailure) -> NI m ->
  (forall c, In c (cm_ctrls m) -> c_name c = n -> holds c) -> prim e allow KS m m' ->
  forall c, In c (cm_ctrls m') -> c_name c = n -> holds c.
Proof.
  intros HE HN HL P. pose proof (proj1 HN) as ND.
  assert (U : forall n0 f, (forall c, In c (cm_ctrls m) -> c_name c = n0 -> n0 = n -> holds (f c)) ->
     (forall c, c_name (f c) = c_name c) ->
     forall c, In c (upd_in (cm_ctrls m) n0 f) -> c_name c = n -> holds c).
  { intros n0 f Hf Hn c Hc Hcn. apply In_upd in Hc. destruct Hc as [[Hc _]|(c0 & Hc & Hc0 & ->)]; [apply HL; assumption|].
    apply Hf; [exact Hc|exact Hc0|]. rewrite <- Hcn, Hn. symmetry. exact Hc0. }
  destruct P; try exact HL; try (apply U; [|reflexivity]; intros c0 Hc0 Hn0 En).
  - intros A. cbn [upd_lc c_lc] in A. contradiction.
  - intros A. cbn [set_stop upd_lc c_lc] in A. destruct (H0 A) as (_ & t & Ht). subst n. exfalso. exact (HE t Ht).
  - assert (c0 = c) by (eapply find_same; eassumption). subst c0. intros _.
    cbn [set_run upd_lc upd_loans c_cmd c_cloans c_state c_sloans].
    apply claim_all_got in H1. rewrite app_nil_l in H1. subst cl. unfold cmd_names, state_names.
    split; intros ks Eq; rewrite Eq; reflexivity.
  - assert (c0 = c) by (eapply find_same; eassumption). subst c0. intros _.
    cbn [upd_loans c_cmd c_cloans c_state c_sloans].
    apply claim_all_got in H1. rewrite app_nil_l in H1. subst cl. unfold cmd_names, state_names.
    split; intros ks Eq; rewrite Eq; reflexivity.
  - intros A. cbn [set_stop upd_lc c_lc] in A. contradiction.
  - intros A. cbn [upd_loans c_lc] in A. assert (c0 = c) by (eapply find_same; eassumption). subst c0. contradiction.
  - intros A. exact (HL c0 Hc0 (eq_trans Hn0 En) A).
  - intros c0 Hc Hcn. cbn [set_topo set_ctrls cm_ctrls] in Hc. apply in_app_iff in Hc.
    destruct Hc as [Hc|[<-|[]]]; [apply HL; assumption|]. intros A. discriminate.
  - intros c0 Hc Hcn. cbn [set_topo set_ctrls cm_ctrls] in Hc. apply filter_In in Hc. apply HL; [exact (proj1 Hc)|exact Hcn].
  - intros c' Hc Hcn. destruct (reorder_members _ _ _ _ HN H0 H1 c' Hc) as (c & g & Hin & ->). intros A. exact (HL c Hin Hcn A).
  - intros c0 Hc Hcn. cbn [set_ctrls cm_ctrls] in Hc. apply in_map_iff in Hc. destruct Hc as (c & <- & Hin). intros A. exact (HL c Hin Hcn A).
Qed.
