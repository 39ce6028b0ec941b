(** CmExcl.v -- no hardware command interface is on loan to two controllers. *)
From Coq Require Import Permutation Lia.
From Verif Require Import Base Events HwModel RmModel RmSys RmSpec RmProofs RmInv ChainModel CmModel CmPrim ChainSpec CmTopo CmInv.

Definition loans (l : list ctrl) : list name := flat_map c_cloans l.
Definition cnt (k : name) (l : list ctrl) : nat := count_occ string_dec (loans l) k.
Definition Excl (k : name) (m : cm) : Prop :=
  cnt k (cm_ctrls m) <= 1 /\ (cnt k (cm_ctrls m) = 1 -> aget (rm_claimed (cm_rm m)) k = Some true).

Lemma split_upd l n c : NoDup (map c_name l) -> find_in l n = Some c ->
  exists l1 l2, l = l1 ++ c :: l2 /\ forall f, upd_in l n f = l1 ++ f c :: l2.
Proof.
  intros ND F. pose proof (find_in_In _ _ _ F) as Hin. pose proof (find_in_name _ _ _ F) as <-.
  apply in_split in Hin. destruct Hin as (l1 & l2 & ->). exists l1, l2. split; [reflexivity|]. intros f.
  unfold upd_in. rewrite map_app. cbn [map]. rewrite String.eqb_refl.
  rewrite map_app in ND. cbn [map] in ND. apply NoDup_remove_2 in ND. rewrite in_app_iff in ND.
  assert (X : forall l, ~ In (c_name c) (map c_name l) -> map (fun c0 => if String.eqb (c_name c0) (c_name c) then f c0 else c0) l = l).
  { induction l as [|x l IH]; intros H; [reflexivity|]. cbn [map]. cbn [map] in H.
    destruct (String.eqb_spec (c_name x) (c_name c)) as [E|_]; [exfalso; apply H; left; exact E|].
    rewrite IH; [reflexivity|]. intros C. apply H. right. exact C. }
  rewrite !X; [reflexivity| |]; intros C; apply ND; tauto.
Qed.

Lemma cnt_app k a b : cnt k (a ++ b) = cnt k a + cnt k b.
Proof. unfold cnt, loans. rewrite flat_map_app. apply count_occ_app. Qed.
Lemma cnt_cons k c l : cnt k (c :: l) = count_occ string_dec (c_cloans c) k + cnt k l.
Proof. unfold cnt, loans. cbn [flat_map]. apply count_occ_app. Qed.

Lemma release_claimed ks : forall r k, aget (rm_claimed (release_all r ks)) k = if mem k ks then Some false else aget (rm_claimed r) k.
Proof.
  unfold release_all. induction ks as [|x ks IH]; intros r k; [reflexivity|]. cbn [fold_left]. rewrite IH.
  cbn [mem existsb]. destruct (existsb (String.eqb k) ks) eqn:E; unfold mem; cbn [existsb]; rewrite E.
  - rewrite orb_true_r. reflexivity.
  - rewrite orb_false_r. cbn [release_cmd with_claimed rm_claimed]. rewrite aget_aset. destruct (String.eqb k x); reflexivity.
Qed.

Lemma claim_all_some : forall ks r got r1 cl, claim_all r ks got = Val (r1, Some cl) ->
  NoDup ks /\ (forall k, In k ks -> aget (rm_claimed r) k = Some false) /\
  (forall k, aget (rm_claimed r1) k = if mem k ks then Some true else aget (rm_claimed r) k).
Proof.
  induction ks as [|x ks IH]; intros r got r1 cl; cbn [claim_all].
  - intros [= <- <-]. split; [constructor|]. split; [intros k []|reflexivity].
  - destruct (cmd_claimed r x) as [[]|] eqn:EC; [discriminate| |discriminate].
    unfold claim_cmd. destruct (cmd_available r x) eqn:EA; [|discriminate].
    destruct (aget (rm_claimed r) x) as [[]|] eqn:E; try discriminate.
    destruct (mem x (rm_ckeys r)); [|discriminate]. intros H. apply IH in H. destruct H as (N & P & Q).
    cbn [with_claimed rm_claimed] in P, Q.
    assert (NX : ~ In x ks).
    { intros C. specialize (P x C). rewrite aget_aset, String.eqb_refl in P. discriminate. }
    split; [constructor; assumption|]. split.
    + intros k [<-|Hk]; [exact E|]. specialize (P k Hk). rewrite aget_aset in P.
      destruct (String.eqb_spec k x) as [Ek|]; [exfalso; apply NX; rewrite <- Ek; exact Hk|exact P].
    + intros k. rewrite Q. unfold mem. cbn [existsb]. fold (mem k ks). destruct (mem k ks) eqn:M; [rewrite orb_true_r; reflexivity|].
      rewrite orb_false_r, aget_aset. destruct (String.eqb k x); reflexivity.
Qed.

Lemma claim_all_none : forall ks r got r1, claim_all r ks got = Val (r1, None) ->
  forall k, ~ In k got -> aget (rm_claimed r1) k = aget (rm_claimed r) k \/ aget (rm_claimed r) k = Some false.
Proof.
  assert (R : forall r got k, ~ In k got -> aget (rm_claimed (release_all r got)) k = aget (rm_claimed r) k).
  { intros r got k H. rewrite release_claimed. destruct (mem k got) eqn:M; [|reflexivity]. apply mem_In in M. contradiction. }
  induction ks as [|x ks IH]; intros r got r1; cbn [claim_all]; [discriminate|].
  destruct (cmd_claimed r x) as [[]|]; [intros [= <-] k Hk; left; apply R; exact Hk| |discriminate].
  unfold claim_cmd. destruct (cmd_available r x); [|intros [= <-] k Hk; left; apply R; exact Hk].
  destruct (aget (rm_claimed r) x) as [[]|] eqn:E; try (intros [= <-] k Hk; left; apply R; exact Hk).
  destruct (mem x (rm_ckeys r)).
  - intros H k Hk. destruct (string_dec k x) as [->|Ne]; [right; exact E|].
    destruct (IH _ _ _ H k) as [A|A].
    + rewrite in_app_iff. intros [C|[C|[]]]; [contradiction|congruence].
    + left. rewrite A. cbn [with_claimed rm_claimed]. apply aget_aset_other. congruence.
    + right. cbn [with_claimed rm_claimed] in A. rewrite aget_aset_other in A by congruence. exact A.
  - intros [= <-] k Hk. destruct (string_dec k x) as [->|Ne]; [right; exact E|]. left. rewrite R by exact Hk.
    cbn [with_claimed rm_claimed]. apply aget_aset_other. congruence.
Qed.

Lemma Excl_same k m m' : cnt k (cm_ctrls m') = cnt k (cm_ctrls m) ->
  (aget (rm_claimed (cm_rm m)) k = Some true -> aget (rm_claimed (cm_rm m')) k = Some true) -> Excl k m -> Excl k m'.
Proof. intros A B [C D]. split; rewrite A; [exact C|]. intros H. apply B. apply D. exact H. Qed.

Lemma cnt_zero k m : Excl k m -> aget (rm_claimed (cm_rm m)) k <> Some true -> cnt k (cm_ctrls m) = 0.
Proof. intros [A B] H. destruct (cnt k (cm_ctrls m)) as [|[|c]] eqn:E; [reflexivity| |lia]. exfalso. apply H. apply B. reflexivity. Qed.

Lemma count_NoDup k l : NoDup l -> count_occ string_dec l k = if mem k l then 1 else 0.
Proof.
  intros ND. destruct (mem k l) eqn:M.
  - apply mem_In in M. pose proof (proj1 (NoDup_count_occ string_dec l) ND k). apply (count_occ_In string_dec) in M. lia.
  - apply count_occ_not_In. apply mem_false. exact M.
Qed.
Lemma count_in k l : count_occ string_dec l k > 0 -> mem k l = true.
Proof. intros H. apply mem_In. apply (count_occ_In string_dec). exact H. Qed.
Lemma count_out k l : mem k l = false -> count_occ string_dec l k = 0.
Proof. intros H. apply count_occ_not_In. apply mem_false. exact H. Qed.

Lemma perm_cnt k l l' : Permutation l l' -> cnt k l = cnt k l'.
Proof.
  intros H. induction H.
  - reflexivity.
  - rewrite !cnt_cons, IHPermutation. reflexivity.
  - rewrite !cnt_cons. lia.
  - congruence.
Qed.

Lemma cnt_group k l l' : NoDup (map c_name l) -> Permutation (map c_name l') (map c_name l) ->
  (forall c', In c' l' -> exists c g, In c l /\ c' = upd_group g c) -> cnt k l' = cnt k l.
Proof.
  intros ND PM H.
  assert (G : forall l1 l2, NoDup (map c_name l2) -> map c_name l1 = map c_name l2 ->
     (forall c', In c' l1 -> exists c g, In c l2 /\ c' = upd_group g c) -> loans l1 = loans l2).
  { clear. intros l1 l2 ND E H.
    assert (F : forall c', In c' l1 -> exists c, find_in l2 (c_name c') = Some c /\ c_cloans c' = c_cloans c).
    { intros c' Hc. destruct (H c' Hc) as (c & g & Hc2 & ->). exists c. split; [|reflexivity]. apply (NoDup_find l2 c ND Hc2). }
    assert (F2 : forall c, In c l2 -> find_in l2 (c_name c) = Some c) by (intros c Hc; apply NoDup_find; assumption).
    clear H. set (big := l2) in F at 1, F2 at 2. clearbody big. clear ND. revert l2 E F2. induction l1 as [|a l1 IH]; intros [|b l2] E F2; try discriminate; [reflexivity|].
    cbn [map] in E. injection E as E1 E2. unfold loans. cbn [flat_map]. destruct (F a (or_introl eq_refl)) as (c & Fc & Ec).
    rewrite E1, (F2 b (or_introl eq_refl)) in Fc. injection Fc as <-. rewrite Ec. f_equal. apply IH; [|exact E2|].
    - intros c' Hc'. apply F. right. exact Hc'.
    - intros c Hc. apply F2. right. exact Hc. }
  (* a permutation of l with the names in the order of l' *)
  set (l2 := flat_map (fun n => match find_in l n with Some c => [c] | None => [] end) (map c_name l')).
  assert (E2 : map c_name l2 = map c_name l' /\ Permutation l2 l).
  { assert (X : l2 = map (fun c' => match find_in l (c_name c') with Some c => c | None => c' end) l').
    { unfold l2. clear -PM ND. assert (HI : forall c', In c' l' -> In (c_name c') (map c_name l)).
      { intros c' Hc. eapply Permutation_in; [exact PM|apply in_map; exact Hc]. }
      clear PM. induction l' as [|a l' IH]; [reflexivity|]. cbn [map flat_map].
      destruct (find_in l (c_name a)) as [c|] eqn:F.
      - cbn [app]. f_equal. apply IH. intros c' Hc'. apply HI. right. exact Hc'.
      - apply find_in_none in F. exfalso. apply F. apply HI. left. reflexivity. }
    assert (EN : map c_name l2 = map c_name l').
    { rewrite X, map_map. apply map_ext. intros c'. destruct (find_in l (c_name c')) as [c|] eqn:F; [|reflexivity].
      eapply find_in_name. exact F. }
    split; [exact EN|]. apply NoDup_Permutation.
    - eapply NoDup_map_inv. rewrite EN. eapply Permutation_NoDup; [apply Permutation_sym; exact PM|exact ND].
    - eapply NoDup_map_inv. exact ND.
    - intros c. split; intros Hc.
      + rewrite X in Hc. apply in_map_iff in Hc. destruct Hc as (c' & E & Hc').
        destruct (find_in l (c_name c')) as [c0|] eqn:F.
        * subst. eapply find_in_In. exact F.
        * apply find_in_none in F. exfalso. apply F. eapply Permutation_in; [exact PM|apply in_map; exact Hc'].
      + unfold l2. apply in_flat_map. exists (c_name c). split.
        * eapply Permutation_in; [apply Permutation_sym; exact PM|apply in_map; exact Hc].
        * rewrite (NoDup_find l c ND Hc). left. reflexivity. }
  destruct E2 as [E2 P2]. rewrite <- (perm_cnt k _ _ P2). unfold cnt. f_equal. apply G.
  - rewrite E2. eapply Permutation_NoDup; [apply Permutation_sym; exact PM|exact ND].
  - symmetry. exact E2.
  - intros c' Hc'. destruct (H c' Hc') as (c & g & Hc & E). exists c, g. split; [|exact E].
    eapply Permutation_in; [apply Permutation_sym; exact P2|exact Hc].
Qed.

Lemma remove_refs_claimed r n k : KInv r -> In k (hw_cmds r) ->
  aget (rm_claimed (remove_refs (remove_exps r n) n)) k = aget (rm_claimed r) k.
Proof.
  intros K Hk. unfold remove_refs, remove_exps.
  destruct (aget (rm_exps r) n); cbn [with_exps with_skeys rm_refs];
  (destruct (aget (rm_refs r) n) as [ks|] eqn:E; [|reflexivity]);
  cbn [with_refs with_cmap rm_claimed with_exps with_skeys rm_refs]; apply fold_adel_other;
  intros C; exact (ki_refs _ K n ks k E C Hk).
Qed.

Lemma prim_Excl e allow (KS : pk -> Prop) m m' k : NI m -> LI m -> RI (cm_rm m) -> (KS KImport -> In k (hw_cmds (cm_rm m))) ->
  prim e allow (KS : pk -> Prop) m m' -> Excl k m -> Excl k m'.
Proof.
  intros HN HL HR Hk P HX. pose proof (proj1 HN) as ND.
  assert (U : forall n c r f, find_ctrl m n = Some c ->
     (forall a, cnt k (cm_ctrls m) = a + count_occ string_dec (c_cloans c) k ->
        a + count_occ string_dec (c_cloans (f c)) k <= 1 /\
        (a + count_occ string_dec (c_cloans (f c)) k = 1 -> aget (rm_claimed r) k = Some true)) ->
     Excl k (upd (set_rm m r) n f)).
  { intros n c r f F H. destruct (split_upd _ _ _ ND F) as (l1 & l2 & El & Eu).
    unfold Excl. cbn [upd set_ctrls set_rm cm_ctrls cm_rm]. rewrite (Eu f).
    assert (C : cnt k (l1 ++ f c :: l2) = cnt k l1 + cnt k l2 + count_occ string_dec (c_cloans (f c)) k).
    { rewrite cnt_app, cnt_cons. lia. }
    rewrite C. apply H. rewrite El, cnt_app, cnt_cons. lia. }
  assert (ID : forall n c, find_ctrl m n = Some c -> c_lc c <> Active -> c_cloans c = []).
  { intros n c F L. apply (HL c); [eapply find_in_In; exact F|exact L]. }
  assert (EV : forall r', evolve (cm_rm m) r' -> Excl k (set_rm m r')).
  { intros r' E. apply (Excl_same k m); [reflexivity| |exact HX]. cbn [set_rm cm_rm]. rewrite (ev_claimed _ _ E). auto. }
  assert (CS : forall r', rm_claimed r' = rm_claimed (cm_rm m) -> Excl k (set_rm m r')).
  { intros r' E. apply (Excl_same k m); [reflexivity| |exact HX]. cbn [set_rm cm_rm]. rewrite E. auto. }
  destruct HX as [HX1 HX2].
  destruct P.
  - apply CS. reflexivity.
  - apply EV. apply rm_read_evolve. apply HR.
  - apply EV. apply rm_write_evolve. apply HR.
  - destruct (set_component_state_ok e (cm_rm m) h t (i_names _ HR)) as [[E _ _] _]. apply EV. exact E.
  - destruct (rm_prepare_evolve e allow (cm_rm m) a d (i_names _ HR)) as [E _]. apply EV. exact E.
  - destruct (rm_perform_evolve e allow (cm_rm m) a d (i_names _ HR)) as [E _]. apply EV. exact E.
  - apply CS. eapply refs_av_maps; eassumption.
  - apply CS. eapply refs_un_maps; eassumption.
  - apply CS. eapply exps_av_maps; eassumption.
  - apply CS. eapply exps_un_maps; eassumption.
  - apply CS. apply claimed_same_cache.
  - apply (Excl_same k m); [reflexivity| |split; [exact HX1|exact HX2]]. cbn [set_rm cm_rm]. apply import_refs_claimed.
  - apply CS. apply claimed_same_import_exps.
  - apply (Excl_same k m); [reflexivity| |split; [exact HX1|exact HX2]]. cbn [set_rm cm_rm].
    rewrite remove_refs_claimed; [auto|apply HR|apply Hk; assumption].
  - (* p_lc *) change (upd m n (upd_lc l)) with (upd (set_rm m (cm_rm m)) n (upd_lc l)).
    apply (U n c); [assumption|]. intros a Ha. cbn [upd_lc c_cloans]. rewrite <- Ha. split; assumption.
  - (* p_halt *) apply (U n c); [assumption|]. intros a Ha. cbn [set_stop upd_lc upd_loans c_cloans count_occ].
    rewrite release_claimed. destruct (mem k (c_cloans c)) eqn:M.
    + apply mem_In in M. apply (count_occ_In string_dec) in M. split; [lia|intros C; lia].
    + apply count_out in M. split; [lia|]. intros C. apply HX2. lia.
  - (* p_run *)
    match goal with HC : claim_all _ _ _ = _ |- _ => pose proof (claim_all_got _ _ _ _ _ HC) as G; apply claim_all_some in HC; destruct HC as (N & C0 & C1) end.
    rewrite app_nil_l in G. subst cl. apply (U n c); [assumption|]. intros a Ha.
    rewrite (ID n c) in Ha |- * by (try assumption; congruence). cbn [release_all fold_left count_occ] in Ha |- *.
    cbn [set_run upd_lc upd_loans c_cloans]. rewrite count_NoDup by exact N. rewrite C1.
    destruct (mem k (cmd_names (cm_rm m) c)) eqn:M.
    + apply mem_In in M. specialize (C0 k M).
      assert (Z : cnt k (cm_ctrls m) = 0) by (apply cnt_zero; [split; assumption|congruence]). split; [lia|auto].
    + split; [lia|]. intros E. apply HX2. lia.
  - (* p_rerun *)
    match goal with HC : claim_all _ _ _ = _ |- _ => pose proof (claim_all_got _ _ _ _ _ HC) as G; apply claim_all_some in HC; destruct HC as (N & C0 & C1) end.
    rewrite app_nil_l in G. subst cl. apply (U n c); [assumption|]. intros a Ha.
    cbn [upd_loans c_cloans]. rewrite count_NoDup by exact N. rewrite release_claimed, C1.
    destruct (mem k (cmd_names (cm_rm m) c)) eqn:M.
    + apply mem_In in M. specialize (C0 k M).
      assert (Z : cnt k (cm_ctrls m) = 0) by (apply cnt_zero; [split; assumption|congruence]). split; [lia|].
      intros _. destruct (mem k (c_cloans c)) eqn:M2; [|reflexivity]. apply mem_In in M2. apply (count_occ_In string_dec) in M2. lia.
    + split; [lia|]. intros E. destruct (mem k (c_cloans c)) eqn:M2; [|apply HX2; apply count_out in M2; lia].
      apply mem_In in M2. apply (count_occ_In string_dec) in M2. lia.
  - (* p_run_fail *)
    match goal with HC : claim_all _ _ _ = _ |- _ => pose proof (claim_all_got _ _ _ _ _ HC) as G; apply claim_all_some in HC; destruct HC as (N & C0 & C1) end.
    rewrite app_nil_l in G. subst cl. apply (U n c); [assumption|]. intros a Ha.
    rewrite (ID n c) in Ha |- * by assumption. cbn [release_all fold_left count_occ] in Ha.
    cbn [set_stop upd_lc upd_loans c_cloans count_occ]. rewrite release_claimed.
    change (release_all r1 []) with r1. rewrite C1.
    destruct (mem k (cmd_names (cm_rm m) c)) eqn:M.
    + apply mem_In in M. specialize (C0 k M).
      assert (Z : cnt k (cm_ctrls m) = 0) by (apply cnt_zero; [split; assumption|congruence]). split; [lia|intros E; lia].
    + split; [lia|]. intros E. apply HX2. lia.
  - (* p_run_skip *)
    match goal with HC : claim_all _ _ _ = _ |- _ => pose proof (claim_all_got _ _ _ _ _ HC) as G; apply claim_all_some in HC; destruct HC as (N & C0 & C1) end.
    rewrite app_nil_l in G. subst cl. apply (U n c); [assumption|]. intros a Ha.
    rewrite (ID n c) in Ha |- * by assumption. cbn [release_all fold_left count_occ] in Ha.
    cbn [set_stop upd_lc upd_loans c_cloans count_occ]. rewrite release_claimed.
    change (release_all r1 []) with r1. rewrite C1.
    destruct (mem k (cmd_names (cm_rm m) c)) eqn:M.
    + apply mem_In in M. specialize (C0 k M).
      assert (Z : cnt k (cm_ctrls m) = 0) by (apply cnt_zero; [split; assumption|congruence]). split; [lia|intros E; lia].
    + split; [lia|]. intros E. apply HX2. lia.
  - (* p_claim_fail *)
    match goal with HC : claim_all _ _ _ = _ |- _ => pose proof (claim_all_none _ _ _ _ HC k (fun x => x)) as D end.
    destruct D as [D|D].
    + apply (Excl_same k m); [reflexivity| |split; [exact HX1|exact HX2]]. cbn [set_rm cm_rm]. rewrite D. auto.
    + assert (Z : cnt k (cm_ctrls m) = 0) by (apply cnt_zero; [split; assumption|congruence]).
      split; cbn [set_rm cm_ctrls]; rewrite Z; [lia|discriminate].
  - (* p_claim_back *)
    match goal with HC : claim_all _ _ _ = _ |- _ => pose proof (claim_all_got _ _ _ _ _ HC) as G; apply claim_all_some in HC; destruct HC as (N & C0 & C1) end.
    rewrite app_nil_l in G. subst cl. 
    destruct (mem k (cmd_names (cm_rm m) c)) eqn:M.
    + apply mem_In in M. specialize (C0 k M).
      assert (Z : cnt k (cm_ctrls m) = 0) by (apply cnt_zero; [split; assumption|congruence]).
      split; cbn [set_rm cm_ctrls]; rewrite Z; [lia|discriminate].
    + apply (Excl_same k m); [reflexivity| |split; [exact HX1|exact HX2]]. cbn [set_rm cm_rm]. rewrite release_claimed, C1, M. auto.
  - (* p_chained *) destruct (find_ctrl m n) as [c|] eqn:F.
    + change (upd m n (upd_chained b)) with (upd (set_rm m (cm_rm m)) n (upd_chained b)).
      apply (U n c); [assumption|]. intros a Ha. cbn [upd_chained c_cloans]. rewrite <- Ha. split; assumption.
    + assert (E : upd_in (cm_ctrls m) n (upd_chained b) = cm_ctrls m).
      { apply find_in_none in F. unfold upd_in. rewrite <- (map_id (cm_ctrls m)) at 2. apply map_ext_in. intros x Hx.
        destruct (String.eqb_spec (c_name x) n) as [Ex|_]; [|reflexivity]. exfalso. apply F. rewrite <- Ex. apply in_map. exact Hx. }
      unfold Excl. cbn [upd set_ctrls cm_ctrls cm_rm]. rewrite E. split; assumption.
  - (* p_load *) unfold Excl. cbn [set_topo set_ctrls cm_ctrls cm_rm]. rewrite cnt_app, cnt_cons.
    cbn [fresh c_cloans count_occ]. unfold cnt at 2 4. cbn [loans flat_map count_occ]. rewrite !Nat.add_0_r. split; assumption.
  - (* p_unload *)
    assert (F : cnt k (filter (fun c => negb (String.eqb (c_name c) n)) (cm_ctrls m)) = cnt k (cm_ctrls m)).
    { match goal with H : find_ctrl m n = Some c |- _ => rename H into Hf end.
      assert (Hall : forall x, In x (cm_ctrls m) -> c_name x = n -> c_cloans x = []).
      { intros x Hx Ex. assert (x = c) by (eapply find_same; eassumption). subst. assumption. }
      clear -Hall. induction (cm_ctrls m) as [|x l IH]; [reflexivity|]. cbn [filter].
      assert (IH' : cnt k (filter (fun c => negb (String.eqb (c_name c) n)) l) = cnt k l) by (apply IH; intros y Hy; apply Hall; right; exact Hy).
      destruct (String.eqb_spec (c_name x) n) as [E|_]; cbn [negb]; rewrite ?cnt_cons, IH'; [|reflexivity].
      rewrite (Hall x (or_introl eq_refl) E). reflexivity. }
    unfold Excl. cbn [set_topo set_ctrls cm_ctrls cm_rm]. rewrite F. split; assumption.
  - (* p_topo *)
    match goal with HB : build_topology m = Val m' , HO : reorder _ _ = Val m'' |- _ => 
      pose proof (reorder_members _ _ _ _ HN HB HO) as RM;
      destruct (build_topology_spec m m' (proj2 HN) HB) as (s & rc & sc & Em & K & _); subst m';
      assert (H' : NI (set_topo m s rc sc)) by (split; [exact ND|]; intros x Hx; apply K; apply (proj2 HN); exact Hx);
      destruct (reorder_spec _ _ _ H' HO) as (names & L & _ & Em & _ & PM & _); subst m'' end.
    apply (Excl_same k m); [| |split; [exact HX1|exact HX2]]; cbn [set_ctrls set_topo cm_rm cm_ctrls] in *; [|auto].
    apply cnt_group; assumption.
  - split; assumption.
  - apply (Excl_same k m); [| |split; [exact HX1|exact HX2]]; cbn [set_ctrls cm_ctrls cm_rm]; [|auto].
    unfold cnt, loans. f_equal. clear. induction (cm_ctrls m) as [|x l IH]; [reflexivity|]. cbn [map flat_map]. rewrite IH. reflexivity.
Qed.
