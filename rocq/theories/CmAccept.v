(** CmAccept.v -- proof that a request that satisfies [acceptable] is accepted. *)
From Verif Require Import Base Events HwModel RmModel RmSys RmSpec RmSpec2 RmInv RmAvail RmProofs RmMode ChainModel CmModel CmPrim ChainSpec CmTopo ChainMain CmInv CmExcl CmReach CmSpec CmSwitch CmOutcome CmLoad CmCache CmCache2 UpdateSpec FollowSpec CmFollow CmLeak CmFallback CmRefs DoneSpec CmDone TellSpec CmTell CmIntact AcceptSpec.
Open Scope list_scope.

Definition open_in (n : name) (r : rm) : Prop :=
  (forall ks, aget (rm_refs r) n = Some ks -> incl ks (rm_avc r)) /\ (forall ks, aget (rm_exps r) n = Some ks -> incl ks (rm_avs r)).
Lemma open_grow n r r' : grow r r' -> open_in n r -> open_in n r'.
Proof.
  intros G [A B]. split; intros ks E x Hx.
  - apply (g_avc _ _ G). rewrite (g_refs _ _ G) in E. exact (A _ E _ Hx).
  - apply (g_avs _ _ G). rewrite (g_exps _ _ G) in E. exact (B _ E _ Hx).
Qed.
Lemma make_exps_opens r n r' : make_exps_available r n = Some r' -> forall ks, aget (rm_exps r') n = Some ks -> incl ks (rm_avs r').
Proof.
  intros H ks E. pose proof (grow_exps _ _ _ H) as G. unfold make_exps_available in H. destruct (aget (rm_exps r) n) as [l|] eqn:X; [|discriminate].
  assert (ks = l) by (rewrite (g_exps _ _ G) in E; congruence). subst ks.
  injection H as <-. cbn. intros x Hx. apply In_add_items. right. exact Hx.
Qed.
Lemma make_refs_opens r n r' : make_refs_available r n = Some r' -> forall ks, aget (rm_refs r') n = Some ks -> incl ks (rm_avc r').
Proof.
  intros H ks E. pose proof (grow_refs _ _ _ H) as G. unfold make_refs_available in H. destruct (aget (rm_refs r) n) as [l|] eqn:X; [|discriminate].
  assert (ks = l) by (rewrite (g_refs _ _ G) in E; congruence). subst ks.
  injection H as <-. cbn. intros x Hx. apply In_add_items. right. exact Hx.
Qed.

Lemma nodup_left (x y : list name) : NoDup (x ++ y) -> NoDup x.
Proof.
  induction x as [|n x IH]; intros H; [constructor|]. inversion H; subst. constructor; [|apply IH; assumption]. intros I. apply H2. apply in_app_iff. auto.
Qed.
Section Accept.
Variables (e : env) (allow : bool) (m : cm) (a d : list name).
Notation l := (cm_ctrls m).
Hypothesis (HND : NoDup (map c_name l)) (HX : XI m) (HF : FI m) (HCS : CS m) (HA : acceptable e allow m a d).

Lemma find_l c : In c l -> find_in l (c_name c) = Some c.
Proof. intros I. apply NoDup_find; assumption. Qed.
Lemma same_l c c' : In c l -> In c' l -> c_name c = c_name c' -> c = c'.
Proof. intros I I' N. pose proof (find_l _ I) as F. rewrite N, (find_l _ I') in F. congruence. Qed.
Lemma disj n : In n a -> In n d -> False.
Proof.
  intros A D. destruct (in_split _ _ A) as (x & y & E). pose proof (ac_once _ _ _ _ _ HA) as N. rewrite E in N.
  rewrite <- app_assoc in N. cbn in N. apply NoDup_remove_2 in N. apply N. rewrite !in_app_iff. auto.
Qed.
Lemma bn c : runs_after m a d c -> by_name c.
Proof. intros R. exact (proj1 (proj1 (ac_real _ _ _ _ _ HA) c R)). Qed.
Lemma not_after c : In c l -> In (c_name c) d -> ~ runs_after m a d c.
Proof. intros _ D [_ [A|[_ N]]]; [eapply disj; eassumption|contradiction]. Qed.

Lemma cmd_owner c k f : runs_after m a d c -> wants_cmd m c k -> In f l -> owned_by k (c_name f) ->
  runs_after m a d f /\ c_chainable f = true /\ exports_ref m f k /\ (In (c_name f) a \/ In k (rm_avc (cm_rm m))).
Proof.
  intros R Wk If O. destruct (proj1 (ac_real _ _ _ _ _ HA) c R) as (_ & SC & _). destruct (ac_own _ _ _ _ _ HA) as [O1 O2].
  destruct (SC k Wk) as [[Hw _]|(g & Rg & Cg & Eg & Ag & _)].
  - exfalso. eapply O2; [exact If| |exact O]. apply in_app_iff. auto.
  - assert (g = f). { apply same_l; [exact (proj1 Rg)|exact If|]. pose proof (O1 g k (proj1 Rg) (or_introl Eg)) as Q. unfold owned_by in *. congruence. }
    subst g. auto.
Qed.
Lemma state_owner c k f : runs_after m a d c -> wants_state m c k -> In f l -> owned_by k (c_name f) ->
  runs_after m a d f /\ c_chainable f = true /\ exports_state m f k /\ (In (c_name f) a \/ In k (rm_avs (cm_rm m))).
Proof.
  intros R Wk If O. destruct (proj1 (ac_real _ _ _ _ _ HA) c R) as (_ & _ & SC & _). destruct (ac_own _ _ _ _ _ HA) as [O1 O2].
  destruct (SC k Wk) as [[Hw _]|(g & Rg & Cg & Eg & Ag)].
  - exfalso. eapply O2; [exact If| |exact O]. apply in_app_iff. auto.
  - assert (g = f). { apply same_l; [exact (proj1 Rg)|exact If|]. pose proof (O1 g k (proj1 Rg) (or_intror Eg)) as Q. unfold owned_by in *. congruence. }
    subst g. auto.
Qed.

Record ok_sw (w : sw) : Prop := {
  os_a : w_act w = a; os_d : w_deact w = d; os_g : grow (cm_rm m) (w_rm w); os_to : forall n, In n (w_to w) -> open_in n (w_rm w) }.
Definition got (c : ctrl) (k : name) (r : rm) : Prop := forall f, In f l -> owned_by k (c_name f) ->
  (wants_cmd m c k -> In k (rm_avc r)) /\ (wants_state m c k -> In k (rm_avs r)).
Lemma got_grow c k r r' : grow r r' -> got c k r -> got c k r'.
Proof. intros G H f I O. destruct (H f I O) as [A B]. split; intros X; [apply (g_avc _ _ G)|apply (g_avs _ _ G)]; auto. Qed.
Lemma names_cmd c r : by_name c -> cmd_names r c = cmd_names (cm_rm m) c.
Proof. intros B. apply by_name_cmd. exact B. Qed.
Lemma names_state c r : by_name c -> state_names r c = state_names (cm_rm m) c.
Proof. intros B. apply by_name_state. exact B. Qed.

Lemma follow_ok : forall fuel w c w' ok, ok_sw w -> runs_after m a d c -> check_following fuel l w c = Val (w', ok) ->
  ok = true /\ ok_sw w' /\ grow (w_rm w) (w_rm w') /\ (forall k, wants m c k -> got c k (w_rm w')).
Proof.
  induction fuel as [|fu IH]; intros w c w' ok OW RA H; [discriminate|]. cbn [check_following] in H.
  pose proof (bn _ RA) as B. rewrite (names_cmd _ _ B), (names_state _ _ B) in H.
  set (cmds := cmd_names (cm_rm m) c) in *. set (states := state_names (cm_rm m) c) in *.
  assert (ONE : forall w k w1 ok1, ok_sw w -> wants m c k -> follow_itf (check_following fu l) l c cmds states w k = Val (w1, ok1) ->
     ok1 = true /\ ok_sw w1 /\ grow (w_rm w) (w_rm w1) /\ got c k (w_rm w1)).
  { clear w w' ok OW H. intros w k w1 ok1 OW Wk H. unfold follow_itf in H. apply bind_val in H. destruct H as (fo & HC & H).
    destruct fo as [f|].
    2:{ injection H as <- <-. split; [reflexivity|]. split; [exact OW|]. split; [apply grow_refl|]. intros f If O. exfalso.
        apply chained_to_val in HC. destruct HC as (p & P1 & P2). unfold owned_by in O. rewrite P1 in O. injection O as ->. apply P2. apply in_map. exact If. }
    apply chained_to_some in HC. destruct HC as [O F]. pose proof (find_in_In _ _ _ F) as If.
    assert (Q : runs_after m a d f /\ c_chainable f = true /\
      ((In (c_name f) a) \/ ((wants_cmd m c k -> In k (rm_avc (cm_rm m))) /\ (wants_state m c k -> In k (rm_avs (cm_rm m))))) /\
      (wants_cmd m c k -> exports_ref m f k) /\ (wants_state m c k -> exports_state m f k)).
    { assert (Q1 : wants_cmd m c k -> exports_ref m f k) by (intros W; apply (cmd_owner _ _ _ RA W If O)).
      assert (Q2 : wants_state m c k -> exports_state m f k) by (intros W; apply (state_owner _ _ _ RA W If O)).
      assert (Q3 : In (c_name f) a \/ ((wants_cmd m c k -> In k (rm_avc (cm_rm m))) /\ (wants_state m c k -> In k (rm_avs (cm_rm m))))).
      { destruct (in_dec string_dec (c_name f) a) as [Y|Nn]; [left; exact Y|right].
        split; intros W; [destruct (cmd_owner _ _ _ RA W If O) as (_ & _ & _ & [X|X])|destruct (state_owner _ _ _ RA W If O) as (_ & _ & _ & [X|X])]; try contradiction; exact X. }
      destruct Wk as [W|W]; [destruct (cmd_owner _ _ _ RA W If O) as (X & Y & _)|destruct (state_owner _ _ _ RA W If O) as (X & Y & _)]; auto 6. }
    destruct Q as (Rf & Cf & Av & E1 & E2). rewrite Cf in H. cbn [negb] in H.
    assert (NDf : ~ In (c_name f) d) by (intros D; exact (not_after _ If D Rf)).
    rewrite (os_d _ OW), (os_a _ OW) in H.
    destruct (mem (c_name f) d) eqn:MD; [apply mem_In in MD; contradiction|]. rewrite andb_false_r in H.
    assert (AA : negb (is_lc Active f) && negb (mem (c_name f) a) = false).
    { destruct Rf as [_ [X|[X _]]]; [apply mem_In in X; rewrite X; apply andb_false_r|]. apply active_dec in X. rewrite X. reflexivity. }
    rewrite AA in H. apply bind_val in H. destruct H as ([w2 ok2] & HR & H).
    destruct (IH _ _ _ _ OW Rf HR) as (-> & OW2 & G2 & _). cbn [negb] in H.
    assert (GOT : forall r, grow (cm_rm m) r -> (In (c_name f) a -> (wants_cmd m c k -> In k (rm_avc r)) /\ (wants_state m c k -> In k (rm_avs r))) -> got c k r).
    { intros r Gr Hr f' If' O'. assert (f' = f) by (apply same_l; [exact If'|exact If|unfold owned_by in *; congruence]). subst f'.
      destruct Av as [X|[X Y]]; [exact (Hr X)|]. split; intros W; [apply (g_avc _ _ Gr)|apply (g_avs _ _ Gr)]; auto. }
    destruct (c_chained f) eqn:CH; cbn [negb] in H.
    - injection H as <- <-. split; [reflexivity|]. split; [constructor; cbn; apply OW2|]. split; [exact G2|].
      apply GOT; [apply OW2|]. intros Af. destruct (ac_start _ _ _ _ _ HA f If Af) as [_ C]. congruence.
    - destruct (mem (c_name f) (w_to w2)) eqn:MT.
      + injection H as <- <-. split; [reflexivity|]. split; [exact OW2|]. split; [exact G2|]. apply mem_In in MT.
        destruct (os_to _ OW2 _ MT) as [X Y]. apply GOT; [apply OW2|]. intros _. split; intros W.
        * destruct (E1 W) as (ks & E & K). eapply X; [|exact K]. rewrite (g_refs _ _ (os_g _ OW2)). exact E.
        * destruct (E2 W) as (ks & E & K). eapply Y; [|exact K]. rewrite (g_exps _ _ (os_g _ OW2)). exact E.
      + apply bind_val in H. destruct H as (r1 & H1 & H). destruct (make_exps_available (w_rm w2) (c_name f)) as [r1'|] eqn:ME; [|discriminate].
        injection H1 as <-. pose proof (grow_exps _ _ _ ME) as G3. pose proof (make_exps_opens _ _ _ ME) as P3.
        assert (S3 : wants_state m c k -> In k (rm_avs r1')).
        { intros W. destruct (E2 W) as (ks & E & K). eapply P3; [|exact K]. rewrite (g_exps _ _ G3), (g_exps _ _ (os_g _ OW2)). exact E. }
        destruct (mem k cmds) eqn:MK.
        * apply bind_val in H. destruct H as (r2 & H1 & H). destruct (make_refs_available r1' (c_name f)) as [r2'|] eqn:MR; [|discriminate].
          injection H1 as <-. pose proof (grow_refs _ _ _ MR) as G4. pose proof (make_refs_opens _ _ _ MR) as P4. injection H as <- <-.
          assert (G5 : grow (w_rm w2) r2') by (eapply grow_trans; eassumption).
          split; [reflexivity|]. split.
          { constructor; cbn; try apply OW2; [eapply grow_trans; [apply OW2|exact G5]|]. intros n Hn. apply in_app_iff in Hn.
            destruct Hn as [Hn|[<-|[]]]; [eapply open_grow; [exact G5|apply OW2; exact Hn]|]. split; [exact P4|].
            intros ks E x Hx. apply (g_avs _ _ G4). eapply P3; [|exact Hx]. rewrite <- (g_exps _ _ G4). exact E. }
          split; [cbn; eapply grow_trans; eassumption|]. cbn. apply GOT; [eapply grow_trans; [apply OW2|exact G5]|]. intros _. split; intros W.
          -- destruct (E1 W) as (ks & E & K). eapply P4; [|exact K]. rewrite (g_refs _ _ G5), (g_refs _ _ (os_g _ OW2)). exact E.
          -- apply (g_avs _ _ G4). auto.
        * injection H as <- <-. split; [reflexivity|]. split.
          { constructor; cbn; try apply OW2; [eapply grow_trans; [apply OW2|exact G3]|]. intros n Hn. eapply open_grow; [exact G3|apply OW2; exact Hn]. }
          split; [cbn; eapply grow_trans; eassumption|]. cbn. apply GOT; [eapply grow_trans; [apply OW2|exact G3]|]. intros _. split; intros W; [|auto].
          exfalso. assert (mem k cmds = true) by (apply mem_In; exact W). congruence. }
  assert (LOOP : forall ks w w' ok, (forall k, In k ks -> wants m c k) -> ok_sw w ->
     follow_loop (follow_itf (check_following fu l) l c cmds states) ks w = Val (w', ok) ->
     ok = true /\ ok_sw w' /\ grow (w_rm w) (w_rm w') /\ (forall k, In k ks -> got c k (w_rm w'))).
  { clear w w' ok OW H. induction ks as [|k ks IHk]; intros w w' ok Hks OW H; cbn [follow_loop] in H.
    - injection H as <- <-. split; [reflexivity|]. split; [exact OW|]. split; [apply grow_refl|]. intros k [].
    - apply bind_val in H. destruct H as ([w1 ok1] & H1 & H). destruct (ONE _ _ _ _ OW (Hks k (or_introl eq_refl)) H1) as (-> & O1 & G1 & K1).
      destruct (IHk _ _ _ (fun x Hx => Hks x (or_intror Hx)) O1 H) as (-> & O2 & G2 & K2).
      split; [reflexivity|]. split; [exact O2|]. split; [eapply grow_trans; eassumption|].
      intros x [<-|Hx]; [eapply got_grow; eassumption|apply K2; exact Hx]. }
  destruct (LOOP _ _ _ _ (fun k Hk => match in_app_or _ _ _ Hk with or_introl x => or_introl x | or_intror x => or_intror x end) OW H) as (A1 & A2 & A3 & A4).
  split; [exact A1|]. split; [exact A2|]. split; [exact A3|]. intros k [W|W]; apply A4; apply in_app_iff; auto.
Qed.

Lemma rforall_all f : forall ks b, (forall k b', In k ks -> f k = Val b' -> b' = true) -> rforall f ks = Val b -> b = true.
Proof.
  induction ks as [|k ks IH]; intros b Hf H; cbn [rforall] in H; [congruence|]. apply bind_val in H. destruct H as (b1 & H1 & H).
  rewrite (Hf k b1 (or_introl eq_refl) H1) in H. eapply IH; [|exact H]. intros k' b' I'. apply Hf. right. exact I'.
Qed.
Lemma cfg_avail cfg av k : In k (cfg_names cfg av) -> In k av \/ exists ks, cfg = IIndividual ks /\ In k ks.
Proof.
  destruct cfg; cbn [cfg_names]; intros H; [destruct H|left; exact H|right; eauto| |].
  - left. apply filter_In in H. apply mem_In. exact (proj2 H).
  - left. apply in_flat_map in H. destruct H as (p & _ & H). apply filter_In in H. exact (proj1 H).
Qed.
Lemma fallback_ok r c b : grow (cm_rm m) r -> In c l -> In (c_name c) a -> check_fallback l r c = Val b -> b = true.
Proof.
  intros G Ic Ia. unfold check_fallback. apply rforall_all. intros n b1 In1 H1.
  destruct (ac_fb _ _ _ _ _ HA c n Ic Ia In1) as (fb & Ifb & <- & Lfb & Fc & Fs).
  unfold check_fallback_one in H1. rewrite (find_l _ Ifb) in H1.
  assert (Q : is_lc Inactive fb || is_lc Active fb = true) by (unfold is_lc; destruct Lfb as [-> | ->]; reflexivity).
  rewrite Q in H1. cbn [negb] in H1.
  apply bind_val in H1. destruct H1 as (b2 & H2 & H1).
  assert (IT : forall avail av exported ks b0,
     (forall k, avail k = mem k av) ->
     (forall k, In k ks -> In k av \/ exists f, In f l /\ owned_by k (c_name f) /\ c_lc f = Inactive /\ In (c_name f) (c_fallback c) /\
        forall x, exported (c_name f) = Val x -> In k x) ->
     rforall (fallback_itf l c avail exported) ks = Val b0 -> b0 = true).
  { intros avail av exported ks b0 EA Hk. apply rforall_all. intros k b' Ik HH. unfold fallback_itf in HH. rewrite EA in HH.
    destruct (mem k av) eqn:MA; [congruence|]. destruct (Hk k Ik) as [X|(f & If & O & Lf & Ff & Ex)]; [apply mem_In in X; congruence|].
    assert (CH : chained_to l k = Val (Some f)) by (apply chained_to_some; split; [exact O|apply find_l; exact If]).
    rewrite CH in HH. cbn [bind] in HH. unfold is_lc in HH. rewrite Lf in HH. cbn [lc_eqb] in HH. apply mem_In in Ff. rewrite Ff in HH.
    apply bind_val in HH. destruct HH as (x & Hx & HH). injection HH as <-. apply mem_In. apply Ex. exact Hx. }
  assert (b2 = true).
  { eapply (IT (cmd_available r) (rm_avc r) _ _ _ (fun _ => eq_refl)); [|exact H2]. intros k Hk. apply cfg_avail in Hk.
    destruct Hk as [Hk|(ks & E & Hk)]; [left; exact Hk|]. destruct (Fc ks k E Hk) as [X|(f & If & O & Lf & Ff & (x & Ex & Kx))]; [left; apply (g_avc _ _ G); exact X|].
    right. exists f. do 4 (split; [assumption|]). intros y Hy. rewrite (g_refs _ _ G), Ex in Hy. cbn in Hy. injection Hy as <-. exact Kx. }
  subst b2. cbn [negb] in H1.
  eapply (IT (state_available r) (rm_avs r) _ _ _ (fun _ => eq_refl)); [|exact H1]. intros k Hk. apply cfg_avail in Hk.
  destruct Hk as [Hk|(ks & E & Hk)]; [left; exact Hk|]. destruct (Fs ks k E Hk) as [X|(f & If & O & Lf & Ff & (x & Ex & Kx))]; [left; apply (g_avs _ _ G); exact X|].
  right. exists f. do 4 (split; [assumption|]). intros y Hy. rewrite (g_exps _ _ G), Ex in Hy. cbn in Hy. injection Hy as <-. exact Kx.
Qed.

Lemma loaded_l n : In n (a ++ d) -> exists c, In c l /\ c_name c = n.
Proof. apply (ac_loaded _ _ _ _ _ HA). Qed.
Lemma act_ok : forall rest kept w x, incl rest a -> ok_sw w -> act_loop l true kept rest w = Val x ->
  exists w', x = inl w' /\ ok_sw w' /\ grow (w_rm w) (w_rm w') /\
    forall c k, In c l -> In (c_name c) rest -> wants m c k -> got c k (w_rm w').
Proof.
  induction rest as [|n rest IH]; intros kept w x Hi OW H; cbn [act_loop] in H.
  - injection H as <-. exists w. split; [reflexivity|]. split; [exact OW|]. split; [apply grow_refl|]. intros c k _ [].
  - apply bind_val in H. destruct H as ([w1 ok1] & H1 & H). unfold check_activate in H1.
    destruct (loaded_l n) as (c & Ic & <-); [apply in_app_iff; left; apply Hi; left; reflexivity|].
    assert (Ia : In (c_name c) a) by (apply Hi; left; reflexivity).
    rewrite (find_l _ Ic) in H1. destruct (ac_start _ _ _ _ _ HA c Ic Ia) as [Lc _]. rewrite Lc in H1.
    apply bind_val in H1. destruct H1 as ([w2 ok2] & H2 & H1).
    assert (RA : runs_after m a d c) by (split; auto).
    destruct (follow_ok _ _ _ _ _ OW RA H2) as (-> & O2 & G2 & K2).
    apply bind_val in H1. destruct H1 as (b & H3 & H1). injection H1 as <- <-.
    rewrite (fallback_ok _ _ _ (os_g _ O2) Ic Ia H3) in H.
    destruct (IH _ _ _ (fun y Hy => Hi y (or_intror Hy)) O2 H) as (w' & -> & O' & G' & K').
    exists w'. split; [reflexivity|]. split; [exact O'|]. split; [eapply grow_trans; eassumption|].
    intros c' k Ic' [E|Hr] W; [|apply K'; assumption]. assert (c' = c) by (apply same_l; auto). subst c'.
    eapply got_grow; [exact G'|]. apply K2. exact W.
Qed.

Lemma preceding_ok_l w c : ok_sw w -> In c l -> In (c_name c) d -> check_preceding m w c = true.
Proof.
  intros OW Ic Dc. unfold check_preceding. destruct (negb (c_chainable c)); [reflexivity|]. apply forallb_forall. intros u Hu.
  destruct (find_ctrl m u) as [p|] eqn:F; [|reflexivity]. destruct (find_loaded m u p F) as [Ip Np].
  rewrite (os_a _ OW), (os_d _ OW).
  assert (NR : runs_after m a d p -> conf p -> False).
  { intros RA Cp. pose proof (bn _ RA) as B. destruct (HCS p (c_name c) Ip Cp B) as (k & Hk & Ok).
    { rewrite Np. unfold cache_get. apply in_app_iff. apply in_app_iff in Hu. tauto. }
    destruct B as (ks & ss & Ek & Es & _).
    assert (RF : runs_after m a d c).
    { destruct Hk as [(ks' & E & Hk)|(ks' & E & Hk)].
      - apply (cmd_owner p k c RA); [|exact Ic|exact Ok]. unfold wants_cmd, cmd_names. rewrite E. exact Hk.
      - apply (state_owner p k c RA); [|exact Ic|exact Ok]. unfold wants_state, state_names. rewrite E. exact Hk. }
    exact (not_after _ Ic Dc RF). }
  apply andb_true_iff. split; apply negb_true_iff; apply not_true_is_false; intros X; apply andb_prop in X; destruct X as [X Y].
  - apply mem_In in Y. apply NR; [split; [exact Ip|left; rewrite Np; exact Y]|left]. unfold is_lc in X. destruct (c_lc p); try discriminate; reflexivity.
  - apply active_dec in X. apply negb_true_iff in Y. apply NR; [|right; exact X]. split; [exact Ip|]. right. split; [exact X|]. rewrite Np. intros D. apply mem_In in D. congruence.
Qed.
Lemma deact_ok w : ok_sw w -> forall rest kept, incl rest d -> deact_loop m true kept rest w = Some w.
Proof.
  intros OW. induction rest as [|n rest IH]; intros kept Hi; cbn [deact_loop]; [reflexivity|].
  destruct (loaded_l n) as (c & Ic & <-); [apply in_app_iff; right; apply Hi; left; reflexivity|].
  assert (D : In (c_name c) d) by (apply Hi; left; reflexivity).
  unfold find_ctrl. rewrite (find_l _ Ic). assert (L : is_lc Active c = true) by (apply active_dec; apply (ac_stop _ _ _ _ _ HA c Ic D)).
  rewrite L, (preceding_ok_l _ _ OW Ic D). apply IH. intros x Hx. apply Hi. right. exact Hx.
Qed.

Record cf_ok (w : sw) : Prop := {
  cf_d : forall c, In c l -> In (c_name c) (w_deact w) -> c_lc c = Active;
  cf_a : forall c, In c l -> In (c_name c) (w_act w) -> c_lc c = Inactive \/ In (c_name c) (w_deact w) }.
Lemma conflict_one_ok w c : In c l -> cf_ok w -> exists w', conflict_one true w c = inl w' /\ cf_ok w'.
Proof.
  intros Ic [C1 C2]. unfold conflict_one.
  set (restart := (mem (c_name c) (w_to w) || mem (c_name c) (w_from w)) && is_lc Active c && negb (mem (c_name c) (w_deact w))).
  set (w1 := if restart then _ else w).
  assert (W1 : cf_ok w1 /\ (mem (c_name c) (w_deact w1) = true -> c_lc c = Active) /\ (mem (c_name c) (w_act w1) = true -> c_lc c = Inactive \/ mem (c_name c) (w_deact w1) = true)).
  { assert (K : cf_ok w1).
    { unfold w1. destruct restart eqn:RS; [|constructor; assumption]. unfold restart in RS. apply andb_prop in RS. destruct RS as [RS _]. apply andb_prop in RS.
      destruct RS as [_ LA]. apply active_dec in LA. constructor; cbn; intros x Ix Hx; apply in_app_iff in Hx.
      - destruct Hx as [Hx|[E|[]]]; [apply C1; assumption|]. assert (x = c) by (apply same_l; auto). congruence.
      - rewrite in_app_iff. destruct Hx as [Hx|[E|[]]]; [destruct (C2 x Ix Hx); auto|]. right. right. left. exact E. }
    split; [exact K|]. split; intros X; apply mem_In in X.
    - apply (cf_d _ K); assumption.
    - destruct (cf_a _ K c Ic X) as [Y|Y]; [auto|right; apply mem_In; exact Y]. }
  clearbody w1. destruct W1 as (K & D1 & A1).
  assert (E1 : negb (is_lc Active c) && mem (c_name c) (w_deact w1) = false).
  { destruct (mem (c_name c) (w_deact w1)); [|apply andb_false_r]. rewrite (proj2 (active_dec c) (D1 eq_refl)). reflexivity. }
  cbv zeta. rewrite E1. cbn [andb negb]. rewrite !andb_true_r.
  assert (E2 : is_lc Active c && negb (mem (c_name c) (w_deact w1)) && mem (c_name c) (w_act w1) = false).
  { apply not_true_is_false. intros X. apply andb_prop in X. destruct X as [X Y]. apply andb_prop in X. destruct X as [X Z]. apply negb_true_iff in Z.
    apply active_dec in X. destruct (A1 Y); congruence. }
  rewrite E2. cbn [andb negb]. rewrite !andb_true_r.
  assert (E3 : negb (is_lc Inactive c) && negb (mem (c_name c) (w_deact w1)) && mem (c_name c) (w_act w1) = false).
  { apply not_true_is_false. intros X. apply andb_prop in X. destruct X as [X Y]. apply andb_prop in X. destruct X as [X Z]. apply negb_true_iff in Z, X.
    destruct (A1 Y) as [Q|Q]; [unfold is_lc in X; rewrite Q in X; discriminate|congruence]. }
  rewrite E3. cbn [andb negb]. rewrite !andb_true_r. eexists. split; [reflexivity|].
  destruct (mem (c_name c) (w_act w1)); constructor; cbn; apply K.
Qed.
Lemma conflict_ok : forall cs w, incl cs l -> cf_ok w -> exists w', conflict_loop true cs w = inl w'.
Proof.
  induction cs as [|c cs IH]; intros w Hi K; cbn [conflict_loop]; [eauto|].
  destruct (conflict_one_ok w c (Hi c (or_introl eq_refl)) K) as (w1 & -> & K1). apply IH; [intros x Hx; apply Hi; right; exact Hx|exact K1].
Qed.

Lemma future_ok : forall ds acc, (forall n, In n ds -> exists c, In c l /\ c_name c = n) -> exists fut,
  fold_left (fun acc n =>
      match acc, find_in l n with
      | Some a, Some c => Some (a ++ match c_cmd c with IIndividual ks => ks | _ => c_claimed c end)
      | _, _ => None
      end) ds (Some acc) = Some fut /\ incl acc fut /\
  forall c ks k, In c l -> In (c_name c) ds -> c_cmd c = IIndividual ks -> In k ks -> In k fut.
Proof.
  induction ds as [|n ds IH]; intros acc Hl; cbn [fold_left].
  - exists acc. split; [reflexivity|]. split; [intros x Hx; exact Hx|]. intros c ks k _ [].
  - destruct (Hl n (or_introl eq_refl)) as (c & Ic & <-). rewrite (find_l _ Ic).
    destruct (IH (acc ++ match c_cmd c with IIndividual ks => ks | _ => c_claimed c end)) as (fut & E & I1 & I2); [intros x Hx; apply Hl; right; exact Hx|].
    exists fut. split; [exact E|]. split; [intros x Hx; apply I1; apply in_app_iff; auto|].
    intros c' ks k Ic' [N|D] Ek Hk; [|eapply I2; eassumption]. assert (c' = c) by (apply same_l; auto). subst c'.
    apply I1. apply in_app_iff. right. rewrite Ek. exact Hk.
Qed.

Lemma avail_cmds_ok r fut : forall ks taken o, NoDup ks ->
  (forall k, In k ks -> In k (rm_avc r) /\ (aget (rm_claimed r) k = Some true -> In k fut) /\ ~ In k taken) ->
  avail_cmds r fut ks taken = Val o -> o = Some (taken ++ ks).
Proof.
  induction ks as [|k ks IH]; intros taken o ND Hk H; cbn [avail_cmds] in H; [rewrite app_nil_r; congruence|].
  destruct (Hk k (or_introl eq_refl)) as (A & B & C). assert (AV : cmd_available r k = true) by (apply mem_In; exact A).
  rewrite AV in H. cbn [negb] in H. unfold cmd_claimed in H. rewrite AV in H. apply bind_val in H. destruct H as (cl & Hc & H).
  assert (E : cl && negb (mem k fut) = false).
  { destruct cl; [|reflexivity]. cbn. apply negb_false_iff. apply mem_In. apply B. destruct (aget (rm_claimed r) k); [cbn in Hc; congruence|discriminate]. }
  rewrite E in H. destruct (mem k taken) eqn:MT; [apply mem_In in MT; contradiction|].
  inversion ND; subst. apply IH in H; [|assumption|].
  - rewrite <- app_assoc in H. exact H.
  - intros x Hx. destruct (Hk x (or_intror Hx)) as (A' & B' & C'). split; [exact A'|]. split; [exact B'|]. rewrite in_app_iff.
    intros [X|[<-|[]]]; contradiction.
Qed.
Lemma avail_skip r fut deact : forall ns taken, avail_loop l r fut deact ns taken = avail_loop l r fut deact (filter (fun n => negb (mem n deact)) ns) taken.
Proof.
  induction ns as [|n ns IH]; intros taken; cbn [filter]; [reflexivity|]. destruct (mem n deact) eqn:M; cbn [negb].
  - cbn [avail_loop]. rewrite M. apply IH.
  - cbn [avail_loop]. rewrite M. destruct (find_in l n); [|reflexivity]. destruct (avail_cmds _ _ _ _) as [[t|]|]; cbn [bind]; try reflexivity.
    destruct (forallb _ _); [apply IH|reflexivity].
Qed.
Lemma avail_ok r fut deact : (forall k, In k (rm_avc (cm_rm m)) -> In k (rm_avc r)) -> forall ns taken b, NoDup ns -> incl ns a ->
  (forall n, In n ns -> ~ In n deact) ->
  (forall c k, In c l -> In (c_name c) a -> wants_cmd m c k -> In k (rm_avc r) /\ (aget (rm_claimed r) k = Some true -> In k fut)) ->
  (forall c k, In c l -> In (c_name c) a -> wants_state m c k -> In k (rm_avs r)) ->
  (forall k, In k taken -> exists c, In c l /\ In (c_name c) a /\ ~ In (c_name c) ns /\ wants_cmd m c k) ->
  avail_loop l r fut deact ns taken = Val b -> b = true.
Proof.
  intros _. induction ns as [|n ns IH]; intros taken b ND Hi Hd HC HS HT H; cbn [avail_loop] in H; [congruence|].
  destruct (mem n deact) eqn:M; [apply mem_In in M; exfalso; eapply Hd; [left; reflexivity|exact M]|].
  assert (Ia : In n a) by (apply Hi; left; reflexivity).
  destruct (loaded_l n) as (c & Ic & <-); [apply in_app_iff; left; exact Ia|]. rewrite (find_l _ Ic) in H.
  assert (RA : runs_after m a d c) by (split; auto). pose proof (bn _ RA) as B. rewrite (names_cmd _ _ B), (names_state _ _ B) in H.
  apply bind_val in H. destruct H as (o & Ho & H).
  apply avail_cmds_ok in Ho.
  - subst o. assert (E : forallb (state_available r) (state_names (cm_rm m) c) = true).
    { apply forallb_forall. intros k Hk. apply mem_In. apply (HS c k); assumption. }
    rewrite E in H. inversion ND; subst. eapply IH; [assumption| | |exact HC|exact HS| |exact H].
    + intros x Hx. apply Hi. right. exact Hx.
    + intros x Hx. apply Hd. right. exact Hx.
    + intros k Hk. apply in_app_iff in Hk. destruct Hk as [Hk|Hk].
      * destruct (HT k Hk) as (c' & I' & A' & N' & W'). exists c'. do 2 (split; [assumption|]). split; [|exact W']. intros X. apply N'. right. exact X.
      * exists c. do 2 (split; [assumption|]). split; assumption.
  - destruct B as (ks & ss & Ek & _ & N). unfold cmd_names. rewrite Ek. exact N.
  - intros k Hk. destruct (HC c k Ic Ia Hk) as [X Y]. split; [exact X|]. split; [exact Y|]. intros T.
    destruct (HT k T) as (c' & I' & A' & N' & W'). destruct (ac_real _ _ _ _ _ HA) as [_ NC].
    apply (NC c' c k); [split; auto|exact RA| |exact W'|exact Hk]. intros E. apply N'. left. auto.
Qed.

(** whoever holds an interface a started controller asks for is stopped *)
Lemma holder_in_d c k : In c l -> In (c_name c) a -> wants_cmd m c k -> aget (rm_claimed (cm_rm m)) k = Some true ->
  exists x ks, In x l /\ In (c_name x) d /\ c_cmd x = IIndividual ks /\ In k ks.
Proof.
  intros Ic Ia Wk T. assert (RA : runs_after m a d c) by (split; auto).
  assert (H : exists x, In x l /\ c_lc x = Active /\ In k (c_cloans x)).
  { destruct (ac_real _ _ _ _ _ HA) as [H1 _]. destruct (H1 c RA) as (_ & SC & _). destruct (SC k Wk) as [[Hw _]|(g & _ & _ & _ & _ & Hh)]; [|apply Hh; exact T].
    destruct (fi_hw _ HF k Hw) as [KK _]. pose proof (ki_held _ _ KK T) as Cn. destruct (cnt_held _ _ Cn) as (x & Ix & Kx).
    exists x. split; [exact Ix|]. split; [|exact Kx]. destruct (c_lc x) eqn:L; try reflexivity; exfalso;
      (destruct (ci_l _ (xi_ci _ HX) x Ix) as [E _]; [congruence|rewrite E in Kx; destruct Kx]). }
  destruct H as (x & Ix & Lx & Kx).
  assert (BX : by_name x -> exists ks, c_cmd x = IIndividual ks /\ In k ks).
  { intros (ks & ss & E & _). pose proof (fi_fit _ HF x Ix k Kx) as Q. rewrite E in Q. exists ks. split; [exact E|exact Q]. }
  destruct (in_dec string_dec (c_name x) d) as [D|ND].
  - destruct (BX (ac_named _ _ _ _ _ HA x Ix D)) as (ks & E & K). exists x, ks. auto.
  - exfalso. assert (RXx : runs_after m a d x) by (split; [exact Ix|right; split; assumption]).
    destruct (BX (bn _ RXx)) as (ks & E & K). destruct (ac_real _ _ _ _ _ HA) as [_ NC].
    apply (NC x c k RXx RA); [|unfold wants_cmd, cmd_names; rewrite E; exact K|exact Wk].
    intros EN. assert (x = c) by (apply same_l; auto). subst x. destruct (ac_start _ _ _ _ _ HA c Ic Ia). congruence.
Qed.

Lemma list_ok : forall ns got, (forall n, In n ns -> exists c, In c l /\ c_name c = n) -> list_controllers l true ns got true = Some (got ++ ns).
Proof.
  induction ns as [|n ns IH]; intros got0 H; cbn [list_controllers]; [rewrite app_nil_r; reflexivity|].
  destruct (H n (or_introl eq_refl)) as (c & Ic & <-). rewrite (find_l _ Ic). rewrite IH; [rewrite <- app_assoc; reflexivity|].
  intros x Hx. apply H. right. exact Hx.
Qed.

Lemma request_ok asap : exists m1, switch_request e allow m a d true asap = Val (m1, SwPending).
Proof.
  destruct (main_returns e allow m a d true asap (ac_acyc _ _ _ _ _ HA) (ac_names _ _ _ _ _ HA) (ac_reg _ _ _ _ _ HA) (ac_claims _ _ _ _ _ HA)) as (m1 & o & H).
  { intros c Ic Ia. left. apply (ac_start _ _ _ _ _ HA c Ic Ia). }
  exists m1. rewrite H. f_equal. f_equal. unfold switch_request in H.
  rewrite (list_ok d []), (list_ok a []) in H; try (intros n Hn; apply loaded_l; apply in_app_iff; auto). cbn [app] in H.
  apply bind_val in H. destruct H as (w1 & H1 & H). apply propagate_same in H1. destruct H1 as (S1 & P3 & P4).
  assert (O1 : ok_sw w1).
  { constructor; [apply (ss_act _ _ S1)|apply (ss_deact _ _ S1)|rewrite P3; apply grow_refl|]. intros n. rewrite P4. intros []. }
  apply bind_val in H. destruct H as (x & H2 & H).
  destruct (act_ok a [] w1 x (fun _ y => y) O1 H2) as (w2 & -> & O2 & G2 & K2).
  rewrite (os_d _ O2) in H. rewrite (deact_ok w2 O2 d [] (fun _ y => y)) in H.
  assert (NE : forall b c', a ++ d <> [] -> sw_empty {| w_rm := w_rm w2; w_act := a ++ b; w_deact := d ++ c'; w_to := []; w_from := []; w_start := []; w_stop := [] |} = false).
  { intros b c' Ne. unfold sw_empty. cbn. destruct a; [|reflexivity]. destruct d; [contradiction|]. destruct b; reflexivity. }
  assert (NE' : forall w b c', w_act w = a ++ b -> w_deact w = d ++ c' -> sw_empty w = false).
  { intros w b c' E1 E2. pose proof (NE b c' (ac_some _ _ _ _ _ HA)) as Q. unfold sw_empty in *. cbn in Q. rewrite E1, E2. exact Q. }
  rewrite (NE' w2 [] []) in H; [|rewrite app_nil_r; apply O2..].
  assert (CF : cf_ok w2).
  { constructor; intros c Ic Hc; [rewrite (os_d _ O2) in Hc; apply (ac_stop _ _ _ _ _ HA c Ic Hc)|].
    rewrite (os_a _ O2) in Hc. left. apply (ac_start _ _ _ _ _ HA c Ic Hc). }
  destruct (conflict_ok l w2 (fun _ y => y) CF) as (w4 & H4). rewrite H4 in H.
  destruct (conflict_strict _ _ _ H4) as (R & A4 & D4 & G4 & _ & _ & R4 & _).
  destruct (conflict_lists _ HND _ _ H4) as (AV & ST & SP & LC).
  rewrite (os_a _ O2) in A4. rewrite (os_d _ O2) in D4, R4.
  rewrite (NE' w4 R R A4 D4) in H.
  assert (GG : grow (cm_rm m) (w_rm w4)) by (eapply grow_trans; [apply O2|exact G4]).
  assert (RR : forall n, In n R -> exists c, In c l /\ c_name c = n /\ c_lc c = Active /\ runs_after m a d c).
  { intros n Hn. destruct (R4 n Hn) as (ND & _ & c & Ic & <- & Lc). exists c. do 3 (split; [auto|]). split; [exact Ic|]. right. auto. }
  assert (AC : forall c k, In c l -> In (c_name c) a -> wants_cmd m c k -> In k (rm_avc (w_rm w4)) /\ In k (rm_ckeys (w_rm w4))).
  { intros c k Ic Ia Wk. assert (RA : runs_after m a d c) by (split; auto).
    destruct (proj1 (ac_real _ _ _ _ _ HA) c RA) as (_ & SC & _). rewrite (g_ck _ _ GG).
    destruct (SC k Wk) as [[Hw Av]|(g & Rg & Cg & Eg & Ag & _)].
    - split; [apply (g_avc _ _ GG); exact Av|]. apply (ki_c _ (i_k _ (ci_r _ (xi_ci _ HX)))). exact Hw.
    - split; [|destruct Eg as (ks & E & K); eapply (rx_refs _ (xi_rx _ HX)); eassumption].
      apply (g_avc _ _ G4). destruct (K2 c k Ic Ia (or_introl Wk) g (proj1 Rg)) as [Q _]; [|exact (Q Wk)].
      destruct (ac_own _ _ _ _ _ HA) as [O _]. apply (O g k (proj1 Rg)). auto. }
  assert (AS : forall c k, In c l -> In (c_name c) a -> wants_state m c k -> In k (rm_avs (w_rm w4))).
  { intros c k Ic Ia Wk. assert (RA : runs_after m a d c) by (split; auto).
    destruct (proj1 (ac_real _ _ _ _ _ HA) c RA) as (_ & _ & SC & _).
    destruct (SC k Wk) as [[Hw Av]|(g & Rg & Cg & Eg & Ag)]; [apply (g_avs _ _ GG); exact Av|].
    apply (g_avs _ _ G4). destruct (K2 c k Ic Ia (or_intror Wk) g (proj1 Rg)) as [_ Q]; [|exact (Q Wk)].
    destruct (ac_own _ _ _ _ _ HA) as [O _]. apply (O g k (proj1 Rg)). auto. }
  apply bind_val in H. destruct H as (b & H5 & H).
  assert (b = true).
  { unfold check_availability in H5. destruct (future_ok (w_deact w4) []) as (fut & EF & _ & IF).
    { intros n Hn. rewrite D4 in Hn. apply in_app_iff in Hn. destruct Hn as [Hn|Hn]; [apply loaded_l; apply in_app_iff; auto|destruct (RR n Hn) as (c & Ic & Nc & _); eauto]. }
    unfold future_available in H5. rewrite EF in H5. rewrite avail_skip in H5.
    assert (EA : filter (fun n => negb (mem n (w_deact w4))) (w_act w4) = a).
    { rewrite A4, filter_app. assert (E1 : filter (fun n => negb (mem n (w_deact w4))) R = []).
      { assert (Q : forall R', incl R' R -> filter (fun n => negb (mem n (w_deact w4))) R' = []).
        { induction R' as [|n R' IH]; intros Hi; [reflexivity|]. cbn [filter]. assert (M : mem n (w_deact w4) = true).
          { apply mem_In. rewrite D4. apply in_app_iff. right. apply Hi. left. reflexivity. } rewrite M. cbn. apply IH. intros y Hy. apply Hi. right. exact Hy. }
        apply Q. intros y Hy. exact Hy. }
      rewrite E1, app_nil_r. assert (Q : forall a', incl a' a -> filter (fun n => negb (mem n (w_deact w4))) a' = a').
      { induction a' as [|n a' IH]; intros Hi; [reflexivity|]. cbn [filter]. assert (M : mem n (w_deact w4) = false).
        { apply not_true_is_false. intros M. apply mem_In in M. rewrite D4 in M. apply in_app_iff in M. assert (Ia : In n a) by (apply Hi; left; reflexivity).
          destruct M as [M|M]; [eapply disj; eassumption|]. destruct (RR n M) as (c & Ic & <- & Lc & _). destruct (ac_start _ _ _ _ _ HA c Ic Ia). congruence. }
        rewrite M. cbn [negb]. rewrite IH; [reflexivity|]. intros y Hy. apply Hi. right. exact Hy. }
      apply Q. intros y Hy. exact Hy. }
    rewrite EA in H5. eapply avail_ok; [| | | | |exact AS| |exact H5].
    - intros k. apply (g_avc _ _ GG).
    - exact (nodup_left _ _ (ac_once _ _ _ _ _ HA)).
    - intros y Hy. exact Hy.
    - intros n Hn M. assert (F : In n (filter (fun n => negb (mem n (w_deact w4))) (w_act w4))) by (rewrite EA; exact Hn).
      apply filter_In in F. destruct F as [_ F]. apply mem_In in M. rewrite M in F. discriminate.
    - intros c k Ic Ia Wk. split; [apply (AC c k Ic Ia Wk)|]. rewrite (g_cl _ _ GG). intros T.
      destruct (holder_in_d c k Ic Ia Wk T) as (x & ks & Ix & Dx & Ex & Kx). eapply IF; [exact Ix| |exact Ex|exact Kx]. rewrite D4. apply in_app_iff. auto.
    - intros k []. }
  subst b. cbn [negb] in H.
  assert (LL : forall c, In c l -> In (c_name c) (a ++ R) \/ In (c_name c) (d ++ R) -> In (c_name c) d \/ runs_after m a d c).
  { intros c Ic [X|X]; apply in_app_iff in X; destruct X as [X|X].
    - right. split; auto.
    - right. destruct (RR _ X) as (c' & Ic' & N & _ & RA). assert (c' = c) by (apply same_l; auto). subst c'. exact RA.
    - left. exact X.
    - right. destruct (RR _ X) as (c' & Ic' & N & _ & RA). assert (c' = c) by (apply same_l; auto). subst c'. exact RA. }
  assert (BB : forall c, In (c_name c) d \/ runs_after m a d c -> In c l -> by_name c).
  { intros c [X|X] Ic; [apply (ac_named _ _ _ _ _ HA c Ic X)|apply bn; exact X]. }
  assert (EX : forall r c k, In c l -> In (c_name c) d \/ runs_after m a d c -> In k (extract_cmd r c) -> wants_cmd m c k).
  { intros r c k Ic Hc Hk. unfold extract_cmd in Hk. destruct (_ || _); [|destruct Hk]. unfold wants_cmd. rewrite <- (names_cmd c r (BB c Hc Ic)). exact Hk. }
  assert (SRC : forall k, In k (w_start w4) \/ In k (w_stop w4) -> exists c, In c l /\ (In (c_name c) (a ++ R) \/ In (c_name c) (d ++ R)) /\ wants_cmd m c k).
  { assert (Z : w_start w2 = [] /\ w_stop w2 = []).
    { pose proof (act_loop_strict _ _ _ _ _ H2) as (S2 & _). cbn [either] in S2. rewrite (ss_start _ _ S2), (ss_stop _ _ S2), (ss_start _ _ S1), (ss_stop _ _ S1). auto. }
    destruct Z as [Z1 Z2]. rewrite ST, SP, Z1, Z2, A4, D4. cbn [app]. intros k [Hk|Hk]; apply in_flat_map in Hk; destruct Hk as (c & Ic & Hk);
      (destruct (mem (c_name c) _) eqn:M; [|destruct Hk]; apply mem_In in M; exists c; split; [exact Ic|]; split; [auto|]; eapply EX; [exact Ic|apply LL; auto|exact Hk]). }
  assert (N4 : names_ok (w_rm w4)). { unfold names_ok. rewrite (g_hw _ _ GG). apply (ci_r _ (xi_ci _ HX)). }
  pose proof (asked_told MPrepare e allow (set_rm m (w_rm w4)) (w_start w4) (w_stop w4) N4) as T5. cbv zeta in T5.
  unfold asked in T5. cbn [cm_rm set_rm] in T5. destruct T5 as (t & _ & _ & _ & _ & T5).
  destruct (rm_prepare e allow (w_rm w4) (w_start w4) (w_stop w4)) as [r5 ok]. cbn [snd] in T5. rewrite T5 in H; cbn [negb] in H; [congruence| |].
  - intros _ k Hk. destruct (SRC k Hk) as (c & Ic & Hc & Wk).
    destruct (in_dec string_dec (c_name c) a) as [Ia|Na]; [destruct (AC c k Ic Ia Wk); auto|].
    assert (Lc : c_lc c = Active).
    { destruct (LL c Ic Hc) as [X|[_ [X|[X _]]]]; [apply (ac_stop _ _ _ _ _ HA c Ic X)|contradiction|exact X]. }
    destruct (ac_run _ _ _ _ _ HA c k Ic Lc Wk) as [X Y]. rewrite (g_ck _ _ GG). split; [exact Y|apply (g_avc _ _ GG); exact X].
  - intros n h Fh _ (k & Hk & Hs). destruct (SRC k Hs) as (c & Ic & Hc & Wk).
    assert (Ih : In h (rm_hw (cm_rm m))) by (rewrite <- (g_hw _ _ GG); eapply find_hw_In; exact Fh).
    destruct (ac_hw _ _ _ _ _ HA h c k Ih Ic (LL c Ic Hc) Wk Hk) as [L P]. pose proof (find_hw_name _ _ _ Fh) as <-.
    split; [destruct L as [->|[-> _]]; [right|left]; reflexivity|]. split; [destruct L as [->|[_ ->]]; auto|exact P].
Qed.
End Accept.

Lemma emit_acceptable e allow m a d : acceptable e allow m a d -> acceptable e allow (emit m EvOp) a d.
Proof. intros []. constructor; assumption. Qed.
Lemma main_accepts e allow hs ops m a d asap : wf_hw hs -> cleans_up e -> crun e allow (cm_start hs) ops = Val m ->
  acceptable e allow m a d -> exists m1, cstep e allow m (CRequest a d true asap) = Val (m1, CSw SwPending).
Proof.
  intros W CU HC HA. pose proof (emit_acceptable _ _ _ _ _ HA) as HA'. set (me := emit m EvOp) in *.
  pose proof (reach_XI _ _ _ _ _ W HC) as X0. pose proof (reach_FI _ _ _ _ _ W HC) as F0. pose proof (reach_CS _ _ _ _ _ CU HC) as S0.
  assert (HC' : crun e allow (cm_start hs) (ops ++ [CTimeout]) = Val me).
  { eapply crun_snoc; [exact HC|]. unfold cstep. fold me. rewrite (ac_idle _ _ _ _ _ HA'). reflexivity. }
  pose proof (reach_XI _ _ _ _ _ W HC') as XE. pose proof (reach_FI _ _ _ _ _ W HC') as FE. pose proof (reach_CS _ _ _ _ _ CU HC') as SE.
  destruct (request_ok e allow me a d (proj1 (ci_n _ (xi_ci _ XE))) XE FE SE HA' asap) as (m1 & H).
  exists m1. unfold cstep. fold me. unfold serviced. rewrite (ac_idle _ _ _ _ _ HA'), H. reflexivity.
Qed.
(** ... and, if the callbacks succeed, carried out *)
Lemma main_accepted_done e allow hs ops m a d asap : wf_hw hs -> cleans_up e -> crun e allow (cm_start hs) ops = Val m ->
  acceptable e allow m a d -> (forall n, In n a \/ state_in m n = Some Active -> works e n) -> hardware_performs e ->
  exists m1 m2 m3, cstep e allow m (CRequest a d true asap) = Val (m1, CSw SwPending) /\
    cstep e allow m1 CPerform = Val (m2, CNone) /\ cstep e allow m2 CEvaluate = Val (m3, CBool true) /\
    (forall n, state_in m3 n = asked_state m a d n) /\
    (forall c, In c (cm_ctrls m3) -> In (c_name c) a -> c_cloans c = cmd_names (cm_rm m3) c /\ c_sloans c = state_names (cm_rm m3) c).
Proof.
  intros W CU HC HA HW HP. destruct (main_accepts _ _ _ _ _ _ _ asap W CU HC HA) as (m1 & H1).
  destruct (main_done e allow hs ops m a d asap m1 W HC (nodup_left _ _ (ac_once _ _ _ _ _ HA)) (ac_real _ _ _ _ _ HA) HW HP H1) as (m2 & m3 & H2 & H3 & H4 & H5).
  exists m1, m2, m3. auto.
Qed.
