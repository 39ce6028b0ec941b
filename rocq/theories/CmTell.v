(** CmTell.v -- what the hardware is told about command interfaces that start and stop being used. *)
From Coq Require Import Lia Permutation.
From Verif Require Import Base Events HwModel RmModel RmSys RmSpec RmSpec2 HwProofs RmProofs RmInv RmMode RmExact ChainModel CmModel CmPrim ChainSpec CmTopo CmInv CmSpec CmReach CmSwitch CmOutcome CmLoad CmIntact UpdateSpec CmDeact CmErr LifeSpec CmLife CmRefs DoneSpec CmDone TellSpec.
Open Scope list_scope.

(** ------------------------------------------------------------ the resource manager *)
Lemma find_hw_ext r r' n : rm_hw r' = rm_hw r -> find_hw r' n = find_hw r n.
Proof. intros H. unfold find_hw. rewrite H. reflexivity. Qed.

Definition member (l : list name) : name -> Prop := fun k => In k l.

Lemma told_nil op m a b : told op m a b [].
Proof. split; [constructor|]. intros. unfold count. simpl. lia. Qed.
Lemma told_iff op m a b a' b' t : (forall k, a k <-> a' k) -> (forall k, b k <-> b' k) -> told op m a b t -> told op m a' b' t.
Proof.
  intros Ha Hb [F C]. split; [|exact C]. eapply Forall_impl; [|exact F].
  intros ev (n & h & s & p & x & E & Fh & K & S & P & k & I & O). exists n, h, s, p, x. split; [exact E|]. split; [exact Fh|]. split; [exact K|].
  split; [intros q; rewrite S, Ha; reflexivity|]. split; [intros q; rewrite P, Hb; reflexivity|]. exists k. split; [exact I|]. rewrite <- Ha, <- Hb. exact O.
Qed.
Lemma agreed_iff op m a b a' b' t : (forall k, a k <-> a' k) -> (forall k, b k <-> b' k) -> all_agreed op m a b t -> all_agreed op m a' b' t.
Proof.
  intros Ha Hb (T & O & C). split; [eapply told_iff; eassumption|]. split; [exact O|]. intros n h Fh K (k & I & W).
  apply (C n h Fh K). exists k. rewrite Ha, Hb. auto.
Qed.
Lemma told_hw op m m' a b t : rm_hw (cm_rm m') = rm_hw (cm_rm m) -> told op m a b t -> told op m' a b t.
Proof.
  intros H [F C]. split; [|exact C]. eapply Forall_impl; [|exact F].
  intros ev (n & h & s & p & x & E & Fh & K). exists n, h, s, p, x. split; [exact E|]. rewrite (find_hw_ext _ _ _ H). auto.
Qed.
Lemma agreed_hw op m m' a b t : rm_hw (cm_rm m') = rm_hw (cm_rm m) -> all_agreed op m a b t -> all_agreed op m' a b t.
Proof.
  intros H (T & O & C). split; [eapply told_hw; eassumption|]. split; [exact O|]. intros n h Fh. rewrite (find_hw_ext _ _ _ H) in Fh. exact (C n h Fh).
Qed.

Lemma tells_forwarded op m a b ev : forwarded op (cm_rm m) a b ev -> tells op m (member a) (member b) ev.
Proof. intros (n & h & s & p & x & E & F & K & _ & Co & S & P). exists n, h, s, p, x. auto 10. Qed.

(** one prepare or perform call of the resource manager *)
Definition asked (op : mode_op) (e : env) (allow : bool) (r : rm) (a b : list name) : rm * bool :=
  match op with MPrepare => rm_prepare e allow r a b | MPerform => rm_perform e allow r a b end.

Lemma asked_told op e allow m a b : names_ok (cm_rm m) ->
  let x := asked op e allow (cm_rm m) a b in
  exists t, rm_trace (fst x) = t ++ rm_trace (cm_rm m) /\ rm_hw (fst x) = rm_hw (cm_rm m) /\
    told op m (member a) (member b) t /\
    (snd x = true -> all_agreed op m (member a) (member b) t) /\
    ((op = MPrepare -> forall k, In k a \/ In k b -> In k (rm_ckeys (cm_rm m)) /\ In k (rm_avc (cm_rm m))) ->
     switch_possible e op allow (cm_rm m) a b -> snd x = true).
Proof.
  intros Hn x.
  assert (M : mode_ok op allow (cm_rm m) (fst x) a b (snd x)).
  { unfold x, asked. destruct op; [apply rm_prepare_spec|apply rm_perform_spec]; exact Hn. }
  destruct M as (t & T & H & F & G).
  assert (X : (forall n, count (is_call op n) t <= 1) /\
     (snd x = true -> forall n h, find_hw (cm_rm m) n = Some h -> h_kind h <> Sensor -> concerned h a b -> count (is_call op n) t = 1) /\
     ((op = MPrepare -> forall k, In k a \/ In k b -> In k (rm_ckeys (cm_rm m)) /\ In k (rm_avc (cm_rm m))) ->
      switch_possible e op allow (cm_rm m) a b -> snd x = true)).
  { clear F G H. destruct (both_empty a b) eqn:Eb.
    { assert (Z : x = (cm_rm m, true)) by (unfold x, asked, rm_prepare, rm_perform; rewrite Eb; destruct op; reflexivity).
      rewrite Z in *. cbn [fst snd] in *. assert (t = []) as -> by (apply (app_inv_tail (rm_trace (cm_rm m))); symmetry; exact T).
      split; [intros; unfold count; simpl; lia|]. split; [|reflexivity]. intros _ n h _ _ (k & _ & W).
      apply both_empty_true in Eb. destruct Eb as [-> ->]. destruct W as [[]|[]]. }
    destruct (mode_two_exact e op allow a b (cm_rm m) Hn) as (t' & T' & A & B & C).
    assert (Z : x = (let y := mode_loop e op allow a b (filter is_actuator (rm_hw (cm_rm m))) (cm_rm m) true in
                     let z := mode_loop e op allow a b (filter is_system (rm_hw (cm_rm m))) (fst y) true in (fst z, snd y && snd z)) \/
                (op = MPrepare /\ x = (cm_rm m, false) /\ ~ forall k, In k a \/ In k b -> In k (rm_ckeys (cm_rm m)) /\ In k (rm_avc (cm_rm m)))).
    { unfold x, asked. destruct op.
      - unfold rm_prepare. rewrite Eb. destruct (negb (forallb (cmd_exists _) a && _)) eqn:E1.
        { right. split; [reflexivity|]. split; [reflexivity|]. intros K. apply negb_true_iff in E1.
          assert (forallb (cmd_exists (cm_rm m)) a && forallb (cmd_exists (cm_rm m)) b = true) as Y; [|congruence].
          apply andb_true_iff. split; apply forallb_forall; intros k Hk; unfold cmd_exists; apply mem_In; apply K; auto. }
        destruct (negb (forallb (cmd_available _) a && _)) eqn:E2.
        { right. split; [reflexivity|]. split; [reflexivity|]. intros K. apply negb_true_iff in E2.
          assert (forallb (cmd_available (cm_rm m)) a && forallb (cmd_available (cm_rm m)) b = true) as Y; [|congruence].
          apply andb_true_iff. split; apply forallb_forall; intros k Hk; unfold cmd_available; apply mem_In; apply K; auto. }
        left. destruct (mode_loop e MPrepare allow a b (filter is_actuator _) _ true) as [r1 y]. cbn [fst snd].
        destruct (mode_loop e MPrepare allow a b (filter is_system _) r1 true) as [r2 z]. reflexivity.
      - unfold rm_perform. rewrite Eb. left. destruct (mode_loop e MPerform allow a b (filter is_actuator _) _ true) as [r1 y]. cbn [fst snd].
        destruct (mode_loop e MPerform allow a b (filter is_system _) r1 true) as [r2 z]. reflexivity. }
    destruct Z as [Z|(E & Z & N)].
    - cbv zeta in *. rewrite Z in *. cbn [fst snd] in *. assert (t = t') as -> by (rewrite T' in T; apply app_inv_tail in T; congruence).
      split; [exact A|]. split; [exact B|]. intros _ P. exact (C P).
    - rewrite Z in *. cbn [fst snd] in *. assert (t = []) as -> by (apply (app_inv_tail (rm_trace (cm_rm m))); symmetry; exact T).
      split; [intros; unfold count; simpl; lia|]. split; [discriminate|]. intros K _. elim N. auto. }
  destruct X as (X1 & X2 & X3). exists t. split; [exact T|]. split; [exact H|].
  assert (TD : told op m (member a) (member b) t).
  { split; [|exact X1]. eapply Forall_impl; [|exact F]. apply tells_forwarded. }
  split; [exact TD|]. split; [|exact X3]. intros E. split; [exact TD|]. split; [exact (proj1 (G E))|]. exact (X2 E).
Qed.

(** ------------------------------------------------------------ the lists collected by a request *)
Definition same_av (r r' : rm) : Prop := rm_avc r' = rm_avc r /\ rm_avs r' = rm_avs r.
Lemma same_av_refl r : same_av r r. Proof. split; reflexivity. Qed.
Lemma same_av_trans a b c : same_av a b -> same_av b c -> same_av a c.
Proof. intros [A B] [C D]. split; congruence. Qed.
Lemma cache_av n ks : forall r, same_av r (cache_controller r n ks).
Proof.
  unfold cache_controller. induction ks as [|k ks IH]; intros r; cbn [fold_left]; [apply same_av_refl|].
  eapply same_av_trans; [|apply IH]. unfold cache_one. destruct (find _ _); split; reflexivity.
Qed.
Lemma same_av_cmd r r' c : same_av r r' -> cmd_names r' c = cmd_names r c.
Proof. intros [A _]. unfold cmd_names. rewrite A. reflexivity. Qed.
Lemma same_av_extract r r' c : same_av r r' -> extract_cmd r' c = extract_cmd r c.
Proof. intros A. unfold extract_cmd. rewrite (same_av_cmd _ _ _ A). reflexivity. Qed.

Lemma conflict_lists cs : NoDup (map c_name cs) -> forall w w', conflict_loop true cs w = inl w' ->
  same_av (w_rm w) (w_rm w') /\
  w_start w' = w_start w ++ flat_map (fun c => if mem (c_name c) (w_act w') then extract_cmd (w_rm w) c else []) cs /\
  w_stop w' = w_stop w ++ flat_map (fun c => if mem (c_name c) (w_deact w') then extract_cmd (w_rm w) c else []) cs /\
  forall c, In c cs -> (In (c_name c) (w_act w') -> c_lc c = Inactive \/ c_lc c = Active) /\ (In (c_name c) (w_deact w') -> c_lc c = Active).
Proof.
  induction cs as [|c cs IH]; intros ND w w' H; cbn [conflict_loop] in H.
  { injection H as <-. cbn [flat_map]. rewrite !app_nil_r. split; [apply same_av_refl|]. split; [reflexivity|]. split; [reflexivity|]. intros c []. }
  cbn [map] in ND. inversion ND as [|? ? N1 N2]; subst.
  destruct (conflict_one true w c) as [w1|w1] eqn:E; [|discriminate].
  pose proof (conflict_strict _ _ _ H) as (R & HA & HD & _ & _ & _ & HR & _).
  destruct (IH N2 w1 w' H) as (I1 & I2 & I3 & I4).
  assert (NR : mem (c_name c) R = false).
  { apply mem_false. intros K. destruct (HR _ K) as (_ & _ & x & Hx & Nx & _). apply N1. rewrite <- Nx. apply in_map. exact Hx. }
  assert (MA : mem (c_name c) (w_act w') = mem (c_name c) (w_act w1)).
  { rewrite HA. apply eq_true_iff_eq. rewrite !mem_In, in_app_iff. apply mem_false in NR. tauto. }
  assert (MD : mem (c_name c) (w_deact w') = mem (c_name c) (w_deact w1)).
  { rewrite HD. apply eq_true_iff_eq. rewrite !mem_In, in_app_iff. apply mem_false in NR. tauto. }
  assert (X : same_av (w_rm w) (w_rm w1) /\
     w_start w1 = w_start w ++ (if mem (c_name c) (w_act w1) then extract_cmd (w_rm w) c else []) /\
     w_stop w1 = w_stop w ++ (if mem (c_name c) (w_deact w1) then extract_cmd (w_rm w) c else []) /\
     (mem (c_name c) (w_act w1) = true -> c_lc c = Inactive \/ c_lc c = Active) /\ (mem (c_name c) (w_deact w1) = true -> c_lc c = Active)).
  { unfold conflict_one in E. cbv zeta in E.
    set (restart := (mem (c_name c) (w_to w) || mem (c_name c) (w_from w)) && is_lc Active c && negb (mem (c_name c) (w_deact w))) in *.
    set (wr := if restart then sw_lists w (w_act w ++ [c_name c]) (w_deact w ++ [c_name c]) else w) in *.
    rewrite !andb_true_r in E.
    destruct (negb (is_lc Active c) && mem (c_name c) (w_deact wr)) eqn:C1 in E; [discriminate|]. cbn [negb] in E. rewrite !andb_true_r in E.
    destruct (is_lc Active c && _ && _) eqn:C2 in E; [discriminate|]. cbn [negb] in E. rewrite ?andb_true_r in E.
    destruct (negb (is_lc Inactive c) && _ && _) eqn:C3 in E; [discriminate|]. cbn [negb] in E. rewrite ?andb_true_r in E.
    injection E as <-.
    assert (Wr : w_rm wr = w_rm w /\ w_start wr = w_start w /\ w_stop wr = w_stop w) by (unfold wr; destruct restart; repeat split).
    destruct Wr as (W1 & W2 & W3).
    assert (LA : mem (c_name c) (w_act wr) = true -> c_lc c = Inactive \/ c_lc c = Active).
    { intros Ma. rewrite Ma in C3. unfold is_lc in *. destruct (mem (c_name c) (w_deact wr)) eqn:Md.
      - right. destruct (c_lc c); cbn in C1; try discriminate. reflexivity.
      - left. destruct (c_lc c); cbn in C3; try discriminate. reflexivity. }
    assert (LD : mem (c_name c) (w_deact wr) = true -> c_lc c = Active).
    { intros Md. rewrite Md in C1. unfold is_lc in C1. destruct (c_lc c); cbn in C1; try discriminate. reflexivity. }
    destruct (mem (c_name c) (w_act wr)) eqn:Ma; destruct (mem (c_name c) (w_deact wr)) eqn:Md;
      cbn [sw_itfs w_act w_deact w_rm w_start w_stop]; rewrite ?Ma, ?Md, ?app_nil_r, ?W1, ?W2, ?W3;
      (split; [first [apply cache_av|apply same_av_refl]|]); (split; [reflexivity|]); (split; [reflexivity|]); split; assumption. }
  destruct X as (X1 & X2 & X3 & X4 & X5). split; [eapply same_av_trans; eassumption|]. cbn [flat_map].
  assert (EX : forall L, flat_map (fun x => if mem (c_name x) L then extract_cmd (w_rm w1) x else []) cs =
                         flat_map (fun x => if mem (c_name x) L then extract_cmd (w_rm w) x else []) cs).
  { intros L. clear -X1. induction cs as [|y l IHl]; [reflexivity|]. cbn [flat_map]. rewrite IHl, (same_av_extract _ _ _ X1). reflexivity. }
  split; [rewrite I2, X2, MA, EX, <- app_assoc; reflexivity|]. split; [rewrite I3, X3, MD, EX, <- app_assoc; reflexivity|].
  intros c0 [<-|Hc]; [|apply I4; exact Hc].
  rewrite <- !mem_In, MA, MD. split; assumption.
Qed.

Lemma extract_spec m r ns (ctrls := cm_ctrls m) k :
  (forall c, In c ctrls -> In (c_name c) ns -> c_lc c = Inactive \/ c_lc c = Active) ->
  (In k (flat_map (fun c => if mem (c_name c) ns then extract_cmd r c else []) ctrls) <->
   exists c, In c ctrls /\ In (c_name c) ns /\ In k (cmd_names r c)).
Proof.
  intros L. rewrite in_flat_map. split.
  - intros (c & Hc & H). destruct (mem (c_name c) ns) eqn:M; [|destruct H]. apply mem_In in M. exists c. split; [exact Hc|]. split; [exact M|].
    unfold extract_cmd in H. destruct (is_lc Active c || is_lc Inactive c); [exact H|destruct H].
  - intros (c & Hc & M & H). exists c. split; [exact Hc|]. pose proof (proj2 (mem_In _ _) M) as M'. rewrite M'. unfold extract_cmd, is_lc.
    destruct (L c Hc M) as [E|E]; rewrite E; exact H.
Qed.

(** what an accepted STRICT request leaves pending, and what the hardware was told *)
Record tell_facts (e : env) (allow : bool) (m m' : cm) (a d R : list name) (p : pend) : Prop := {
  tf_facts : strict_facts m m' a d R p;
  tf_start : forall k, In k (p_start p) <-> commanded m m' (a ++ R) k;
  tf_stop : forall k, In k (p_stop p) <-> commanded m m' (d ++ R) k;
  tf_told : exists t, rm_trace (cm_rm m') = t ++ rm_trace (cm_rm m) /\ all_agreed MPrepare m (commanded m m' (a ++ R)) (commanded m m' (d ++ R)) t }.
Lemma request_tells e allow m a d asap m' : NoDup (map c_name (cm_ctrls m)) -> RI (cm_rm m) ->
  switch_request e allow m a d true asap = Val (m', SwPending) ->
  exists p R, p_asap p = asap /\ tell_facts e allow m m' a d R p.
Proof.
  intros ND HR H. pose proof (request_strict e allow m a d asap m' SwPending ND H) as F.
  destruct F as [(E & _)|[(E & _)|(_ & p & R & Ea & F)]]; [discriminate|discriminate|].
  exists p, R. split; [exact Ea|].
  unfold switch_request in H.
  destruct (list_controllers _ true d [] true) as [d'|] eqn:Ld; [|discriminate].
  destruct (list_controllers _ true a [] true) as [a'|] eqn:La; [|discriminate].
  apply bind_val in H. destruct H as (w1 & H1 & H). apply propagate_same in H1. destruct H1 as (S1 & P3 & P4).
  apply bind_val in H. destruct H as (x & H2 & H). pose proof (act_loop_tr _ _ _ _ _ _ H2) as T2.
  apply act_loop_strict in H2. destruct H2 as (S2 & G2 & _).
  destruct x as [w2|w2]; cbn [either] in *; [|discriminate].
  destruct (deact_loop m true [] (w_deact w2) w2) as [w3|] eqn:H3; [|discriminate].
  apply deact_loop_strict in H3. destruct H3 as [-> A3].
  destruct (sw_empty w2); [discriminate|].
  destruct (conflict_loop true (cm_ctrls m) w2) as [w4|w4] eqn:H4; [|discriminate].
  pose proof (conflict_tr true (cm_ctrls m) w2) as T4. rewrite H4 in T4. cbn [either] in T4.
  pose proof (conflict_grow true (cm_ctrls m) w2) as CG. rewrite H4 in CG. cbn [either] in CG.
  apply (conflict_lists _ ND) in H4. destruct H4 as (AV & ST & SP & LC).
  destruct (sw_empty w4); [discriminate|]. apply bind_val in H. destruct H as (b & _ & H). destruct b; cbn [negb] in H; [|discriminate].
  rewrite P3 in G2, T2. cbn [w_rm] in G2, T2.
  pose proof (grow_trans _ _ _ G2 CG) as G4.
  assert (N4 : names_ok (w_rm w4)). { unfold names_ok. rewrite (g_hw _ _ G4). apply HR. }
  pose proof (asked_told MPrepare e allow (set_rm m (w_rm w4)) (w_start w4) (w_stop w4) N4) as T5. cbv zeta in T5.
  pose proof (grow_mode e MPrepare allow (w_start w4) (w_stop w4)) as GM. clear GM.
  unfold asked in T5. cbn [cm_rm set_rm] in T5.
  assert (AV5 : same_av (w_rm w4) (fst (rm_prepare e allow (w_rm w4) (w_start w4) (w_stop w4)))).
  { clear. unfold rm_prepare. destruct (both_empty _ _); [apply same_av_refl|]. destruct (negb _); [apply same_av_refl|]. destruct (negb _); [apply same_av_refl|].
    assert (X : forall hs r b, same_av r (fst (mode_loop e MPrepare allow (w_start w4) (w_stop w4) hs r b))).
    { induction hs as [|h hs IH]; intros r b; cbn [mode_loop]; [apply same_av_refl|].
      destruct (common_itfs (h_cmd h) (w_start w4)); destruct (common_itfs (h_cmd h) (w_stop w4)); try apply IH;
      (destruct (_ && negb allow); [apply same_av_refl|]; destruct (h_lc h); try apply IH; cbn [mode_call]; (eapply same_av_trans; [|apply IH]; split; reflexivity)). }
    pose proof (X (filter is_actuator (rm_hw (w_rm w4))) (w_rm w4) true) as Y.
    destruct (mode_loop e MPrepare allow (w_start w4) (w_stop w4) (filter is_actuator _) _ true) as [r1 y]. cbn [fst] in Y.
    pose proof (X (filter is_system (rm_hw (w_rm w4))) r1 true) as Z.
    destruct (mode_loop e MPrepare allow (w_start w4) (w_stop w4) (filter is_system _) r1 true) as [r2 z]. cbn [fst] in *.
    eapply same_av_trans; eassumption. }
  destruct (rm_prepare e allow (w_rm w4) (w_start w4) (w_stop w4)) as [r5 ok]. cbn [fst snd] in T5, AV5.
  destruct ok; cbn [negb] in H; [|discriminate].
  destruct T5 as (t & T & Hh & _ & Ag & _). specialize (Ag eq_refl).
  destruct (sf_rm _ _ _ _ _ _ F) as (r & Gr & Em). injection H as <-.
  injection Em as Er Ep. subst r p. cbn [p_act p_deact p_start p_stop p_asap] in *.
  pose proof (sf_act _ _ _ _ _ _ F) as FA. pose proof (sf_deact _ _ _ _ _ _ F) as FD. cbn [p_act p_deact] in FA, FD.
  assert (S0 : w_start w2 = [] /\ w_stop w2 = []).
  { destruct S1 as [_ _ Q1 Q2], S2 as [_ _ Q3 Q4]. cbn [w_start w_stop] in Q1, Q2. split; congruence. }
  destruct S0 as [S01 S02]. rewrite S01 in ST. rewrite S02 in SP. cbn [app] in ST, SP.
  assert (XS : forall k, In k (w_start w4) <-> commanded m (set_pend (set_rm m r5) (Some {| p_act := w_act w4; p_deact := w_deact w4; p_to := w_to w4;
                           p_from := w_from w4; p_start := w_start w4; p_stop := w_stop w4; p_strict := true; p_asap := asap; p_done := false |})) (a ++ R) k).
  { intros k. rewrite ST, FA. unfold commanded, wants_cmd. cbn [cm_rm set_pend set_rm]. rewrite extract_spec; [|intros c Hc Hn; rewrite <- FA in Hn; apply (LC c Hc); exact Hn].
    split; intros (c & C1 & C2 & C3); exists c; (split; [exact C1|]); (split; [exact C2|]);
      rewrite (same_av_cmd _ _ c (same_av_trans _ _ _ AV AV5)) in *; exact C3. }
  assert (XP : forall k, In k (w_stop w4) <-> commanded m (set_pend (set_rm m r5) (Some {| p_act := w_act w4; p_deact := w_deact w4; p_to := w_to w4;
                           p_from := w_from w4; p_start := w_start w4; p_stop := w_stop w4; p_strict := true; p_asap := asap; p_done := false |})) (d ++ R) k).
  { intros k. rewrite SP, FD. unfold commanded, wants_cmd. cbn [cm_rm set_pend set_rm]. rewrite extract_spec; [|intros c Hc Hn; rewrite <- FD in Hn; right; apply (LC c Hc); exact Hn].
    split; intros (c & C1 & C2 & C3); exists c; (split; [exact C1|]); (split; [exact C2|]);
      rewrite (same_av_cmd _ _ c (same_av_trans _ _ _ AV AV5)) in *; exact C3. }
  constructor; [exact F|exact XS|exact XP|].
  exists t. cbn [cm_rm set_pend set_rm]. split; [rewrite T, T4, T2; reflexivity|].
  eapply agreed_iff; [exact XS|exact XP|]. eapply agreed_hw; [|exact Ag]. cbn [cm_rm set_rm]. symmetry. exact (g_hw _ _ G4).
Qed.

(** ------------------------------------------------------------ carrying out the switch *)
Lemma prim_hw e allow (KS : pk -> Prop) m m' : ~ KS KHw -> RI (cm_rm m) -> prim e allow KS m m' -> rm_hw (cm_rm m') = rm_hw (cm_rm m).
Proof.
  intros NK HR H. destruct H; cbn [cm_rm set_rm set_ctrls set_topo set_pend upd emit with_trace rm_hw]; try reflexivity; try contradiction.
  - destruct (rm_prepare_evolve e allow (cm_rm m) a d (i_names _ HR)) as [_ E]. exact E.
  - destruct (rm_perform_evolve e allow (cm_rm m) a d (i_names _ HR)) as [_ E]. exact E.
  - apply (proj1 (refs_av_maps _ _ _ H)).
  - apply (proj1 (refs_un_maps _ _ _ H)).
  - apply (proj1 (exps_av_maps _ _ _ H)).
  - apply (proj1 (exps_un_maps _ _ _ H)).
  - apply cache_maps.
  - unfold import_refs. destruct (add_cmd_itfs _ _) as [r1 ok] eqn:E.
    assert (X : rm_hw r1 = rm_hw (cm_rm m)); [|destruct ok; exact X].
    clear -E. revert E. generalize (cm_rm m). induction (c_refs c) as [|k ks IH]; intros r E; cbn [add_cmd_itfs] in E; [congruence|].
    destruct (mem k (rm_ckeys r)); [congruence|]. apply IH in E. exact E.
  - unfold import_exps. destruct (add_state_itfs _ _) as [r1 ad] eqn:E. change (rm_hw r1 = rm_hw (cm_rm m)).
    clear -E. revert r1 ad E. generalize (cm_rm m). induction (c_exps c) as [|k ks IH]; intros r r1 ad E; cbn [add_state_itfs] in E; [congruence|].
    destruct (mem k (rm_skeys r)); [eapply IH; exact E|].
    destruct (add_state_itfs ks _) as [r2 ad2] eqn:E2. apply IH in E2. injection E as <- <-. exact E2.
  - unfold remove_refs, remove_exps. destruct (aget (rm_exps (cm_rm m)) n); destruct (aget _ n); reflexivity.
  - apply release_maps.
  - pose proof (proj1 (claim_all_maps _ _ _ _ _ H1)) as A. rewrite <- A. apply release_maps.
  - pose proof (proj1 (claim_all_maps _ _ _ _ _ H1)) as A. rewrite <- A. apply release_maps.
  - pose proof (proj1 (claim_all_maps _ _ _ _ _ H0)) as A. rewrite <- A. rewrite (proj1 (release_maps _ _)). apply release_maps.
  - pose proof (proj1 (claim_all_maps _ _ _ _ _ H0)) as A. rewrite <- A. rewrite (proj1 (release_maps _ _)). apply release_maps.
  - pose proof (proj1 (claim_all_maps _ _ _ _ _ H0)) as A. exact A.
  - pose proof (proj1 (claim_all_maps _ _ _ _ _ H0)) as A. rewrite <- A. apply release_maps.
  - unfold build_topology in H0. apply bind_val in H0. destruct H0 as (((s & rc) & sc) & _ & E). injection E as <-.
    unfold reorder in H1. apply bind_val in H1. destruct H1 as (ns & _ & E). injection E as <-. reflexivity.
Qed.
Lemma steps_hw e allow (KS : pk -> Prop) m m' : ~ KS KHw -> RI (cm_rm m) -> steps e allow KS m m' -> rm_hw (cm_rm m') = rm_hw (cm_rm m) /\ RI (cm_rm m').
Proof.
  intros NK HR H. induction H as [|a b H IH P]; [auto|]. destruct IH as [A B]. split; [|eapply prim_RI; eassumption].
  rewrite (prim_hw _ _ _ _ _ NK B P). exact A.
Qed.

Lemma prep_perf_tells e allow m a b : RI (cm_rm m) ->
  exists prepared performed, rm_trace (cm_rm (prep_perf e allow m a b)) = performed ++ prepared ++ rm_trace (cm_rm m) /\
    rm_hw (cm_rm (prep_perf e allow m a b)) = rm_hw (cm_rm m) /\
    told MPrepare m (member a) (member b) prepared /\ told MPerform m (member a) (member b) performed /\
    (performed <> [] -> all_agreed MPrepare m (member a) (member b) prepared) /\
    ((forall k, In k a \/ In k b -> In k (rm_ckeys (cm_rm m)) /\ In k (rm_avc (cm_rm m))) ->
     switch_possible e MPrepare allow (cm_rm m) a b -> switch_possible e MPerform allow (cm_rm m) a b ->
     all_agreed MPrepare m (member a) (member b) prepared /\ all_agreed MPerform m (member a) (member b) performed).
Proof.
  intros HR. unfold prep_perf. pose proof (asked_told MPrepare e allow m a b (i_names _ HR)) as (t1 & T1 & H1 & D1 & A1 & C1).
  unfold asked in *. destruct (rm_prepare e allow (cm_rm m) a b) as [r1 ok]. cbn [fst snd] in *.
  destruct ok.
  - assert (N1 : names_ok (cm_rm (set_rm m r1))) by (unfold names_ok; cbn [cm_rm set_rm]; rewrite H1; apply HR).
    pose proof (asked_told MPerform e allow (set_rm m r1) a b N1) as (t2 & T2 & H2 & D2 & A2 & C2). unfold asked in *. cbn [cm_rm set_rm] in *.
    exists t1, t2. split; [rewrite T2, T1; reflexivity|]. split; [congruence|]. split; [exact D1|].
    split; [eapply told_hw; [|exact D2]; symmetry; exact H1|]. split; [intros _; apply A1; reflexivity|].
    intros _ S1 S2. split; [apply A1; reflexivity|]. eapply agreed_hw; [|apply A2, C2]; [symmetry; exact H1|discriminate|].
    intros n h Fh. rewrite (find_hw_ext _ _ _ H1) in Fh. exact (S2 n h Fh).
  - exists t1, []. cbn [app cm_rm set_rm]. split; [exact T1|]. split; [exact H1|]. split; [exact D1|]. split; [apply told_nil|].
    split; [intros N; elim N; reflexivity|]. intros K S1 _. specialize (C1 (fun _ => K) S1). discriminate.
Qed.

Lemma LF_trace P m m' : LF P m m' -> exists x, rm_trace (cm_rm m') = x ++ rm_trace (cm_rm m) /\ Forall P x.
Proof. intros [(x & A & B & _)]. eauto. Qed.

Definition up_only (k : pk) : Prop := k = KUp.
Lemma activate_tells e allow m ns start m' : RI (cm_rm m) -> activate_controllers e allow m ns true start = Val m' ->
  exists ctl prepared performed, rm_trace (cm_rm m') = performed ++ prepared ++ ctl ++ rm_trace (cm_rm m) /\ Forall switches_ctrl ctl /\
    told MPrepare m nothing (member start) prepared /\ told MPerform m nothing (member start) performed.
Proof.
  intros HR H. unfold activate_controllers in H. apply bind_val in H. destruct H as (m1 & H1 & H). apply bind_val in H. destruct H as (((m2 & ok) & failed) & H2 & H).
  assert (NK : ~ up_only KHw) by (unfold up_only; discriminate).
  assert (S1 : steps e allow up_only m m1).
  { apply (rfold_steps e allow up_only (preactivate) (fun x => x)) with (l := ns); [|exact H1]. intros x n x' E. unfold preactivate in E.
    destruct (find_ctrl x n) as [c|]; [|injection E as <-; apply s_refl]. destruct (c_chainable c); [|injection E as <-; apply s_refl].
    eapply exports_available_steps; exact E. }
  assert (L1 : LF switches_ctrl m m1).
  { apply (rfold_LF switches_ctrl preactivate (fun x => x)) with (l := ns); [|exact H1]. intros x n x' E. unfold preactivate in E.
    destruct (find_ctrl x n) as [c|]; [|injection E as <-; apply LF_refl]. destruct (c_chainable c); [|injection E as <-; apply LF_refl].
    eapply LF_exports. left. exact E. }
  assert (S2 : steps e allow up_only m1 m2).
  { pose proof (rfold_steps e allow up_only (activate_one e) act_rm (fun a b a' => activate_one_steps e allow up_only eq_refl a b a') _ _ _ H2) as X. exact X. }
  assert (L2 : LF switches_ctrl m1 m2).
  { pose proof (rfold_LF switches_ctrl (activate_one e) (fun s : act_state => fst (fst s)) (fun a b a' E => LF_activate_one switches_ctrl e a b a' (fun ev h => h) E) _ _ _ H2) as X. exact X. }
  destruct (LF_trace _ _ _ (LF_trans _ _ _ _ L1 L2)) as (x & Tx & Fx).
  destruct (steps_hw _ _ _ _ _ NK HR (steps_trans _ _ _ _ _ _ S1 S2)) as [Hh HR2].
  assert (Q : forall st stop, RI (cm_rm st) -> rm_hw (cm_rm st) = rm_hw (cm_rm m) -> (forall k, In k stop <-> In k start) -> forall y,
     rm_trace (cm_rm st) = y ++ rm_trace (cm_rm m) -> Forall switches_ctrl y -> 
     exists ctl prepared performed, rm_trace (cm_rm (prep_perf e allow st [] stop)) = performed ++ prepared ++ ctl ++ rm_trace (cm_rm m) /\ Forall switches_ctrl ctl /\
     told MPrepare m nothing (member start) prepared /\ told MPerform m nothing (member start) performed).
  { intros st stop HRs Hs Es y Ty Fy. destruct (prep_perf_tells e allow st [] stop HRs) as (t1 & t2 & T & _ & D1 & D2 & _).
    exists y, t1, t2. split; [rewrite T, Ty; reflexivity|]. split; [exact Fy|].
    split; (eapply told_hw; [symmetry; exact Hs|]; eapply told_iff; [| |eassumption]; unfold nothing, member; [intros; cbn [In]; tauto|exact Es]). }
  destruct (negb ok && true) eqn:Ok.
  - injection H as <-.
    destruct (LF_trace _ _ _ (LF_deactivate switches_ctrl e ns stops_switches m2)) as (y & Ty & Fy).
    destruct (steps_hw _ _ _ _ _ NK HR2 (deactivate_steps e allow up_only ns m2)) as [Hh3 HR3].
    apply (Q (deactivate_controllers e m2 ns) start HR3 (eq_trans Hh3 Hh) (fun k => iff_refl _) (y ++ x)).
    + rewrite Ty, Tx, app_assoc. reflexivity.
    + apply Forall_app. auto.
  - assert (OkT : ok = true) by (destruct ok; [reflexivity|discriminate]).
    assert (failed = []) as ->.
    { clear -H2 OkT. assert (X : forall ns st st', rfold (activate_one e) ns st = Val st' -> (snd (fst st) = true -> snd st = []) -> snd (fst st') = true -> snd st' = []).
      { clear. induction ns as [|n ns IH]; intros st st' H K; cbn [rfold] in H; [injection H as <-; exact K|].
        apply bind_val in H. destruct H as (s1 & H1 & H). apply (IH s1 st' H). clear IH H.
        unfold activate_one in H1. destruct st as [[m ok] failed]. cbn [fst snd] in *.
        destruct (find_ctrl m n) as [c|]; [|injection H1 as <-; exact K].
        apply bind_val in H1. destruct H1 as ((r1 & [cl|]) & _ & H1); [|injection H1 as <-; discriminate].
        destruct (forallb _ _); [|injection H1 as <-; discriminate].
        destruct (find_ctrl (node_activate e _ n) n) as [c2|]; [|injection H1 as <-; exact K].
        destruct (is_lc Active c2).
        - destruct (c_chainable c); [apply bind_val in H1; destruct H1 as (m3 & _ & H1)|]; injection H1 as <-; exact K.
        - destruct (c_chainable c); [apply bind_val in H1; destruct H1 as (m3 & _ & H1)|]; injection H1 as <-; discriminate. }
      exact (X _ _ _ H2 (fun _ => eq_refl) OkT). }
    cbn [negb] in H. injection H as <-. exists x, [], []. split; [exact Tx|]. split; [exact Fx|]. split; apply told_nil.
Qed.

Lemma manage_tells e allow m p m' : RI (cm_rm m) -> p_strict p = true -> manage_switch e allow m p = Val m' ->
  exists now ctl prepared performed,
    rm_trace (cm_rm m') = (performed ++ prepared ++ ctl ++ now) ++ rm_trace (cm_rm m) /\
    told MPerform m (member (p_start p)) (member (p_stop p)) now /\ Forall switches_ctrl ctl /\
    told MPrepare m nothing (member (p_start p)) prepared /\ told MPerform m nothing (member (p_start p)) performed /\
    (all_agreed MPerform m (member (p_start p)) (member (p_stop p)) now \/
     (performed = [] /\ prepared = [] /\ ctl = [] /\ cm_ctrls m' = cm_ctrls m)).
Proof.
  intros HR Hs H. unfold manage_switch in H.
  pose proof (asked_told MPerform e allow m (p_start p) (p_stop p) (i_names _ HR)) as (t1 & T1 & H1 & D1 & A1 & _).
  unfold asked in *. 
  pose proof (RI_evolve _ _ (proj1 (rm_perform_evolve e allow (cm_rm m) (p_start p) (p_stop p) (i_names _ HR))) HR) as HR1.
  destruct (rm_perform e allow (cm_rm m) (p_start p) (p_stop p)) as [r1 ok]. cbn [fst snd] in *.
  destruct ok; cbn [negb] in H.
  - rewrite Hs in H.
    set (m2 := deactivate_controllers e (set_rm m r1) (p_deact p)) in *.
    set (m3 := switch_chained_mode e m2 (p_to p) true) in *. set (m4 := switch_chained_mode e m3 (p_from p) false) in *.
    assert (NK : ~ up_only KHw) by (unfold up_only; discriminate).
    assert (S4 : steps e allow up_only (set_rm m r1) m4).
    { eapply steps_trans; [apply deactivate_steps|]. eapply steps_trans; apply switch_chained_steps. }
    assert (L4 : LF switches_ctrl (set_rm m r1) m4).
    { eapply LF_trans; [apply LF_deactivate, stops_switches|]. eapply LF_trans; apply LF_switch_chained; auto. }
    destruct (LF_trace _ _ _ L4) as (x & Tx & Fx). cbn [cm_rm set_rm] in Tx.
    destruct (steps_hw _ _ _ _ _ NK (HR1 : RI (cm_rm (set_rm m r1))) S4) as [Hh HR4]. cbn [cm_rm set_rm] in Hh.
    destruct (activate_tells _ _ _ _ _ _ HR4 H) as (ctl & t2 & t3 & T & Fc & D2 & D3).
    exists t1, (ctl ++ x), t2, t3. split; [rewrite T, Tx, T1, !app_assoc; reflexivity|]. split; [exact D1|]. split; [apply Forall_app; auto|].
    split; [eapply told_hw; [|exact D2]; congruence|]. split; [eapply told_hw; [|exact D3]; congruence|]. left. apply A1. reflexivity.
  - injection H as <-. exists t1, [], [], []. cbn [app cm_rm set_rm]. split; [exact T1|]. split; [exact D1|]. split; [constructor|].
    split; [apply told_nil|]. split; [apply told_nil|]. right. auto.
Qed.

(** ------------------------------------------------------------ the operations *)
Lemma pending_waits e allow m o m' out p : cm_pend m = Some p -> waits o -> cstep e allow m o = Val (m', out) -> cm_pend m' = Some p.
Proof.
  intros P (N1 & N2 & N3) H. destruct (pending_kept _ _ _ _ _ _ _ P H N2 N3) as [[Q|Q] _]; [exact Q|].
  unfold cstep in H. set (m0 := emit m EvOp) in *. assert (P0 : cm_pend m0 = Some p) by exact P. unfold serviced in H. rewrite P0 in H.
  assert (KU : quiet_kinds KUp) by (split; discriminate). assert (KH : quiet_kinds KHw) by (split; discriminate).
  assert (X : forall x, steps e allow quiet_kinds m0 x -> cm_pend x = Some p).
  { intros x S. apply quiet_steps in S. destruct S as [A _]. congruence. }
  destruct o; try contradiction; try (injection H as <- <-; exact P0).
  - injection H as <- <-. apply X. apply read_steps. exact KH.
  - apply bind_val in H. destruct H as (m1 & H & H1). injection H1 as <- <-. apply X. eapply update_steps; [exact KU|exact H].
  - injection H as <- <-. apply X. apply write_steps. exact KH.
  - pose proof (p_sethw e allow quiet_kinds m0 h target KH) as K. destruct (set_component_state e (cm_rm m0) h target) as [r1 ok].
    injection H as <- <-. apply X. apply steps_prim. exact K.
Qed.
Lemma pending_waits_run e allow : forall mid m m' p, cm_pend m = Some p -> Forall waits mid -> crun e allow m mid = Val m' -> cm_pend m' = Some p.
Proof.
  unfold crun. induction mid as [|o mid IH]; intros m m' p P FA H; cbn [rfold] in H; [injection H as <-; auto|].
  apply bind_val in H. destruct H as (m1 & H1 & H). apply bind_val in H1. destruct H1 as ([m2 out] & H1 & H2). injection H2 as <-.
  inversion FA as [|? ? N FA']; subst. eapply IH; [|exact FA'|exact H]. eapply pending_waits; eassumption.
Qed.
Lemma crun_app e allow m a b m' : crun e allow m a = Val m' -> crun e allow m (a ++ b) = crun e allow m' b.
Proof.
  unfold crun. revert m. induction a as [|o a IH]; intros m H; cbn [rfold app] in *; [injection H as <-; reflexivity|].
  destruct (cstep e allow m o) as [[m1 out]|]; cbn [bind] in *; [|discriminate]. apply IH. exact H.
Qed.
Lemma crun_one e allow m o m' out : cstep e allow m o = Val (m', out) -> crun e allow m [o] = Val m'.
Proof. intros H. unfold crun. cbn [rfold]. rewrite H. reflexivity. Qed.

Lemma main_tell e allow hs ops m a d asap m1 : wf_hw hs -> crun e allow (cm_start hs) ops = Val m ->
  cstep e allow m (CRequest a d true asap) = Val (m1, CSw SwPending) ->
  exists restarted, (forall n, In n restarted -> ~ In n d /\ state_in m n = Some Active) /\
    let start := commanded m m1 (a ++ restarted) in
    let stop := commanded m m1 (d ++ restarted) in
    (exists t, happened m m1 t /\ all_agreed MPrepare m start stop t) /\
    (forall mid m2 m3 out, Forall waits mid -> crun e allow m1 mid = Val m2 -> cstep e allow m2 CPerform = Val (m3, out) ->
       carried_out m2 m3 start stop).
Proof.
  intros W R H. pose proof (reach_NI _ _ _ _ _ R) as [ND _]. pose proof (reach_CI _ _ _ _ _ W R) as [_ HR _].
  pose proof H as H'. unfold cstep in H. set (m0 := emit m EvOp) in H. unfold serviced in H. destruct (cm_pend m0) eqn:P0; [discriminate|].
  apply bind_val in H. destruct H as ([mm o] & H & H1). injection H1 as -> ->.
  assert (HR0 : RI (cm_rm m0)) by (apply RI_emit; [intros h []|exact HR]).
  destruct (request_tells e allow m0 a d asap m1 ND HR0 H) as (p & Rs & _ & [SF TS TP (t & T & A)]).
  exists Rs. split.
  { intros n Hn. destruct (sf_restart _ _ _ _ _ _ SF n Hn) as (A1 & c & Hc & <- & L). split; [exact A1|].
    unfold state_in. change (cm_ctrls m0) with (cm_ctrls m) in Hc. unfold find_ctrl. rewrite (NoDup_find _ _ ND Hc). cbn [option_map]. rewrite L. reflexivity. }
  change (commanded m0) with (commanded m) in *. cbv zeta. split.
  { exists t. split; [exact T|]. eapply agreed_hw; [|exact A]. reflexivity. }
  intros mid m2 m3 out Wt M C. destruct (sf_rm _ _ _ _ _ _ SF) as (r & _ & E1).
  assert (P1 : cm_pend m1 = Some p) by (rewrite E1; reflexivity).
  pose proof (pending_waits_run _ _ _ _ _ _ P1 Wt M) as P2.
  assert (R2 : crun e allow (cm_start hs) (ops ++ (CRequest a d true asap) :: mid) = Val m2).
  { rewrite (crun_app _ _ _ _ _ _ R). change (CRequest a d true asap :: mid) with ([CRequest a d true asap] ++ mid). rewrite (crun_app _ _ _ _ _ _ (crun_one _ _ _ _ _ _ H')). exact M. }
  pose proof (reach_CI _ _ _ _ _ W R2) as [_ HR2 _].
  unfold cstep in C. change (cm_pend (emit m2 EvOp)) with (cm_pend m2) in C. rewrite P2, (sf_done _ _ _ _ _ _ SF) in C.
  apply bind_val in C. destruct C as (m3' & C & E3). injection E3 as <- _.
  assert (HR2' : RI (cm_rm (emit m2 EvOp))) by (apply RI_emit; [intros h []|exact HR2]).
  destruct (manage_tells e allow (emit m2 EvOp) p m3' HR2' (sf_strict _ _ _ _ _ _ SF) C) as (now & ctl & t2 & t3 & T3 & B1 & B2 & B3 & B4 & B5).
  assert (NN : forall k, nothing k <-> nothing k) by (intros; reflexivity).
  exists now, ctl, t2, t3. unfold happened. cbn [cm_rm set_pend]. split; [exact T3|].
  split; [eapply told_iff; [exact TS|exact TP|]; eapply told_hw; [|exact B1]; reflexivity|]. split; [exact B2|].
  split; [eapply told_iff; [exact NN|exact TS|]; eapply told_hw; [|exact B3]; reflexivity|].
  split; [eapply told_iff; [exact NN|exact TS|]; eapply told_hw; [|exact B4]; reflexivity|].
  destruct B5 as [B5|B5]; [left|right; exact B5]. eapply agreed_iff; [exact TS|exact TP|]. eapply agreed_hw; [|exact B5]. reflexivity.
Qed.
