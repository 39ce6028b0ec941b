(** EnforceProofs.v *)
From Coq Require Import ZArith Bool List String Ascii SpecFloat Lia.
From Verif Require Import Base LimitsModel LimitsSpec FloatOrder FloatReal LimitsProofs LimitsMain LimitsHist EnforceModel EnforceSpec.
Import ListNotations.
Open Scope string_scope.
Open Scope list_scope.

(** -------------------------------------------------- names *)
Lemma la_app a b : list_ascii_of_string (a ++ b)%string = list_ascii_of_string a ++ list_ascii_of_string b.
Proof. induction a as [|c a IH]; cbn; [reflexivity|]. rewrite IH. reflexivity. Qed.
Lemma la_inj a b : list_ascii_of_string a = list_ascii_of_string b -> a = b.
Proof. intros H. rewrite <- (string_of_list_ascii_of_string a), H. apply string_of_list_ascii_of_string. Qed.
Lemma itf_inj j k j' k' : In k kinds -> In k' kinds -> itf j k = itf j' k' -> j = j' /\ k = k'.
Proof.
  intros H H' E. apply (f_equal list_ascii_of_string) in E. apply (f_equal (@rev ascii)) in E. unfold itf in E.
  rewrite !la_app, !rev_app_distr in E.
  cbn in H, H'. destruct H as [<-|[<-|[<-|[<-|[]]]]], H' as [<-|[<-|[<-|[<-|[]]]]]; cbn in E; try discriminate E;
    split; try reflexivity; apply la_inj; injection E as E; rewrite <- (rev_involutive (list_ascii_of_string j)), E; apply rev_involutive.
Qed.

(** -------------------------------------------------- maps *)
Lemma aget_insert {A} (m : alist A) k v k' : aget (insert m k v) k' = match aget m k' with Some x => Some x | None => if String.eqb k' k then Some v else None end.
Proof.
  unfold insert. destruct (aget m k) eqn:E.
  - destruct (String.eqb_spec k' k) as [->|]; [rewrite E; reflexivity|destruct (aget m k'); reflexivity].
  - rewrite aget_aset. destruct (String.eqb_spec k' k) as [->|]; [rewrite E; reflexivity|destruct (aget m k'); reflexivity].
Qed.
Lemma map_fst_aset {A} (m : alist A) k v x : aget m k = Some x -> map fst (aset m k v) = map fst m.
Proof.
  induction m as [|[k' v'] m IH]; cbn; [discriminate|]. destruct (String.eqb_spec k k') as [->|]; cbn; [reflexivity|].
  intros H. f_equal. auto.
Qed.
Lemma lim_get_set w hw j m hw' j' : lim_get (lim_set w hw j m) hw' j' = if (String.eqb hw' hw && String.eqb j' j)%bool then Some m else lim_get w hw' j'.
Proof.
  unfold lim_get, lim_set. cbn. rewrite aget_aset. destruct (String.eqb_spec hw' hw) as [->|]; cbn; [|reflexivity].
  destruct (aget (w_lims w) hw) as [ls|] eqn:E; rewrite aget_aset; destruct (String.eqb j' j); reflexivity.
Qed.
Lemma lim_some_fst w hw j m : lim_get w hw j = Some m -> exists ls, aget (w_lims w) hw = Some ls.
Proof. unfold lim_get. destruct (aget (w_lims w) hw) as [ls|]; [eauto|discriminate]. Qed.
Lemma lim_set_fst w hw j m0 m : lim_get w hw j = Some m0 -> map fst (w_lims (lim_set w hw j m)) = map fst (w_lims w).
Proof. intros H. apply lim_some_fst in H. destruct H as [ls H]. unfold lim_set. cbn. eapply map_fst_aset. exact H. Qed.
Lemma aget_In_fst {A} (m : alist A) k x : aget m k = Some x -> In k (map fst m).
Proof.
  induction m as [|[k' v'] m IH]; cbn; [discriminate|]. destruct (String.eqb_spec k k') as [->|]; auto.
Qed.
Lemma lim_In_fst w hw j m : lim_get w hw j = Some m -> In hw (map fst (w_lims w)).
Proof. intros H. apply lim_some_fst in H. destruct H as [ls H]. eapply aget_In_fst. exact H. Qed.

(** -------------------------------------------------- one joint's enforcement touches only that joint *)
(** [stat]: what does not change of a command interface *)
Definition stat (c c' : citf) : Prop := c_prefix c' = c_prefix c /\ c_kind c' = c_kind c /\ c_bound c' = c_bound c.
Record touch (P : name -> Prop) (j : name) (w w' : world) : Prop := {
  to_st : w_states w' = w_states w;
  to_cl : w_claims w' = w_claims w;
  to_pe : w_period w' = w_period w;
  to_hw : map fst (w_lims w') = map fst (w_lims w);
  to_li : forall hw j', j' <> j -> lim_get w' hw j' = lim_get w hw j';
  to_lj : forall hw, match lim_get w hw j with Some m => exists p, lim_get w' hw j = Some (with_prev m p) | None => lim_get w' hw j = None end;
  to_da : forall j', j' <> j -> aget (w_data w') j' = aget (w_data w) j';
  to_cm : forall n, match aget (w_cmds w) n with
                    | Some c => exists c', aget (w_cmds w') n = Some c' /\ stat c c' /\ (c_val c' = c_val c \/ P n)
                    | None => aget (w_cmds w') n = None end }.
Lemma with_prev_prev m p p' : with_prev (with_prev m p) p' = with_prev m p'. Proof. reflexivity. Qed.
Lemma with_prev_self m : with_prev m (m_prev m) = m. Proof. destruct m; reflexivity. Qed.
Lemma stat_refl c : stat c c. Proof. split; [|split]; reflexivity. Qed.
Lemma touch_refl P j w : touch P j w w.
Proof.
  split; try reflexivity.
  - intros hw. destruct (lim_get w hw j) as [m|] eqn:E; [|reflexivity]. exists (m_prev m). rewrite with_prev_self. reflexivity.
  - intros n. destruct (aget (w_cmds w) n) as [c|]; [|reflexivity]. exists c. auto using stat_refl.
Qed.
Lemma touch_trans P j a b c : touch P j a b -> touch P j b c -> touch P j a c.
Proof.
  intros [A1 A2 A3 A4 A5 A6 A7 A8] [B1 B2 B3 B4 B5 B6 B7 B8]. split; try congruence.
  - intros hw j' N. rewrite B5, A5 by exact N. reflexivity.
  - intros hw. specialize (A6 hw). specialize (B6 hw). destruct (lim_get a hw j) as [m|].
    + destruct A6 as [p A6]. rewrite A6 in B6. destruct B6 as [p' B6]. exists p'. exact B6.
    + rewrite A6 in B6. exact B6.
  - intros j' N. rewrite B7, A7 by exact N. reflexivity.
  - intros n. specialize (A8 n). specialize (B8 n). destruct (aget (w_cmds a) n) as [x|].
    + destruct A8 as (y & A8 & (S1 & S2 & S3) & V1). rewrite A8 in B8. destruct B8 as (z & B8 & (T1 & T2 & T3) & V2).
      exists z. split; [exact B8|]. split; [split; [|split]; congruence|]. destruct V2 as [V2|V2]; [|right; exact V2]. destruct V1 as [V1|V1]; [left; congruence|right; exact V1].
    + rewrite A8 in B8. exact B8.
Qed.
Lemma touch_refresh P j w : touch P j w (refresh w j).
Proof.
  split; try reflexivity.
  - intros hw. unfold refresh. cbn. change (lim_get (set_data w _) hw j) with (lim_get w hw j).
    destruct (lim_get w hw j) as [m|] eqn:E; [|reflexivity]. exists (m_prev m). rewrite with_prev_self. reflexivity.
  - intros j' N. unfold refresh. cbn. rewrite aget_aset_other by exact N. reflexivity.
  - intros n. unfold refresh. cbn. destruct (aget (w_cmds w) n) as [c|]; [|reflexivity]. exists c. auto using stat_refl.
Qed.
Lemma touch_lim P j w hw m p : lim_get w hw j = Some m -> touch P j w (lim_set w hw j (with_prev m p)).
Proof.
  intros H. split; try reflexivity.
  - eapply lim_set_fst. exact H.
  - intros hw' j' N. rewrite lim_get_set. destruct (String.eqb_spec j' j); [contradiction|]. rewrite andb_false_r. reflexivity.
  - intros hw'. rewrite lim_get_set, String.eqb_refl, andb_true_r. destruct (String.eqb_spec hw' hw) as [->|].
    + rewrite H. eauto.
    + destruct (lim_get w hw' j) as [x|]; [|reflexivity]. exists (m_prev x). rewrite with_prev_self. reflexivity.
  - intros n. cbn. destruct (aget (w_cmds w) n) as [c|]; [|reflexivity]. exists c. auto using stat_refl.
Qed.
Lemma aget_put w n v n' : aget (w_cmds (put w n v)) n' = if String.eqb n' n then option_map (fun c => with_val c v) (aget (w_cmds w) n') else aget (w_cmds w) n'.
Proof.
  unfold put. destruct (aget (w_cmds w) n) as [c|] eqn:E.
  - cbn. rewrite aget_aset. destruct (String.eqb_spec n' n) as [->|]; [rewrite E|]; reflexivity.
  - destruct (String.eqb_spec n' n) as [->|]; [rewrite E|]; reflexivity.
Qed.
Lemma touch_put (P : name -> Prop) j w n v : (aget (w_cmds w) n <> None -> P n) -> touch P j w (put w n v).
Proof.
  intros Pn. split; try (unfold put; destruct (aget (w_cmds w) n); reflexivity).
  - intros hw. replace (lim_get (put w n v) hw j) with (lim_get w hw j) by (unfold put; destruct (aget (w_cmds w) n); reflexivity).
    destruct (lim_get w hw j) as [x|]; [|reflexivity]. exists (m_prev x). rewrite with_prev_self. reflexivity.
  - intros n'. rewrite aget_put. destruct (String.eqb_spec n' n) as [->|].
    + destruct (aget (w_cmds w) n) as [c|] eqn:E; [|reflexivity]. cbn. exists (with_val c v). split; [reflexivity|]. split; [split; [|split]; reflexivity|].
      right. apply Pn. discriminate.
    + destruct (aget (w_cmds w) n') as [c|]; [|reflexivity]. exists c. auto using stat_refl.
Qed.
Lemma touch_fold (P : name -> Prop) j c ks : forall w,
  (forall k, In k ks -> get_kind c k <> None -> aget (w_cmds w) (itf j k) <> None -> P (itf j k)) ->
  touch P j w (fold_left (put_kind j c) ks w).
Proof.
  induction ks as [|k ks IH]; intros w H; cbn; [apply touch_refl|].
  assert (T : touch P j w (put_kind j c w k)).
  { unfold put_kind. destruct (get_kind c k) as [v|] eqn:E; [|apply touch_refl]. apply touch_put. apply H; [left; reflexivity|congruence]. }
  eapply touch_trans; [exact T|]. apply IH. intros k' I G N. apply H; [right; exact I|exact G|].
  destruct (aget (w_cmds w) (itf j k')) eqn:E; [discriminate|]. pose proof (to_cm _ _ _ _ T (itf j k')) as X. rewrite E in X. congruence.
Qed.
Lemma aget_write_back_other j c ks : forall w n, (forall k, In k ks -> n <> itf j k) -> aget (w_cmds (fold_left (put_kind j c) ks w)) n = aget (w_cmds w) n.
Proof.
  induction ks as [|k ks IH]; intros w n H; cbn; [reflexivity|]. rewrite IH by (intros; apply H; right; assumption).
  unfold put_kind. destruct (get_kind c k); [|reflexivity]. rewrite aget_put. destruct (String.eqb_spec n (itf j k)) as [E|]; [|reflexivity].
  exfalso. exact (H k (or_introl eq_refl) E).
Qed.
Lemma write_back_other w j c n : (forall k, In k kinds -> n <> itf j k) -> aget (w_cmds (write_back w j c)) n = aget (w_cmds w) n.
Proof. apply aget_write_back_other. Qed.
Lemma kinds_nodup : NoDup kinds.
Proof. repeat constructor; cbn; intuition discriminate. Qed.
Lemma aget_write_back_kind j c ks k : NoDup ks -> (forall x, In x ks -> In x kinds) -> In k ks -> forall w,
  aget (w_cmds (fold_left (put_kind j c) ks w)) (itf j k) =
  match get_kind c k with Some v => option_map (fun x => with_val x v) (aget (w_cmds w) (itf j k)) | None => aget (w_cmds w) (itf j k) end.
Proof.
  intros ND SUB. induction ND as [|k0 ks NI ND IH]; intros I w; [destruct I|]. cbn. destruct I as [->|I].
  - rewrite aget_write_back_other.
    + unfold put_kind. destruct (get_kind c k); [|reflexivity]. rewrite aget_put, String.eqb_refl. reflexivity.
    + intros k' I' E. apply itf_inj in E; [|apply SUB; left; reflexivity|apply SUB; right; exact I']. destruct E as [_ ->]. contradiction.
  - rewrite IH; [|intros; apply SUB; right; assumption|exact I]. 
    assert (X : aget (w_cmds (put_kind j c w k0)) (itf j k) = aget (w_cmds w) (itf j k)).
    { unfold put_kind. destruct (get_kind c k0); [|reflexivity]. rewrite aget_put. destruct (String.eqb_spec (itf j k) (itf j k0)) as [E|]; [|reflexivity].
      exfalso. apply itf_inj in E; [|apply SUB; right; exact I|apply SUB; left; reflexivity]. destruct E as [_ ->]. contradiction. }
    rewrite X. reflexivity.
Qed.
Lemma write_back_kind w j c k : In k kinds -> aget (w_cmds (write_back w j c)) (itf j k) =
  match get_kind c k with Some v => option_map (fun x => with_val x v) (aget (w_cmds w) (itf j k)) | None => aget (w_cmds w) (itf j k) end.
Proof. intros I. apply aget_write_back_kind; auto using kinds_nodup. Qed.

(** -------------------------------------------------- what the limiter answers *)
Lemma limit1_none des bounds o b : limit1 des bounds = Some (o, b) -> (o = None <-> des = None).
Proof.
  unfold limit1. destruct des as [v|]; [|intros [= <- _]; tauto]. destruct (isnan v); [intros [= <- _]; tauto|].
  destruct (bounds v) as [lo hi]. destruct (fclamp v lo hi); [intros [= <- _]; split; discriminate|discriminate].
Qed.
Lemma limit1o_none des bounds o b : limit1o des bounds = Some (o, b) -> (o = None <-> des = None).
Proof.
  unfold limit1o. destruct des as [v|]; [|intros [= <- _]; tauto]. destruct (isnan v); [intros [= <- _]; tauto|].
  destruct (bounds v) as [[lo hi]|]; [|discriminate]. destruct (fclamp v lo hi); [intros [= <- _]; split; discriminate|discriminate].
Qed.
Lemma finish_inv prev p v e a j prev' cmd b : finish prev p v e a j = Done prev' cmd b ->
  exists bp bv be ba bj, p = Some (d_pos cmd, bp) /\ v = Some (d_vel cmd, bv) /\ e = Some (d_eff cmd, be) /\ a = Some (d_acc cmd, ba) /\ j = Some (d_jerk cmd, bj).
Proof.
  unfold finish. destruct p as [[p' bp]|], v as [[v' bv]|], e as [[e' be]|], a as [[a' ba]|], j as [[j' bj]|]; try discriminate.
  intros [= _ <- _]. cbn. repeat eexists.
Qed.
Lemma run_kinds m act des dt p c b : run_limiter m act des dt = Done p c b -> forall k, get_kind c k = None <-> get_kind des k = None.
Proof.
  unfold run_limiter. intros H. assert (X : (d_pos c = None <-> d_pos des = None) /\ (d_vel c = None <-> d_vel des = None) /\
    (d_eff c = None <-> d_eff des = None) /\ (d_acc c = None <-> d_acc des = None)).
  { destruct (m_soft m) as [s|]; [unfold enforce_soft in H|unfold enforce in H].
    - destruct (fle dt fzero); [injection H as <- <- <-; tauto|]. destruct (soft_vel _ _ _ _) as [sv|]; [|discriminate].
      destruct (_ && _)%bool; [discriminate|]. apply finish_inv in H. destruct H as (?&?&?&?&?&A&B&C&D&_).
      apply limit1o_none in A. apply limit1_none in B. apply limit1o_none in C. apply limit1_none in D. auto.
    - destruct (fle dt fzero); [injection H as <- <- <-; tauto|].
      destruct (_ && _)%bool; [discriminate|]. apply finish_inv in H. destruct H as (?&?&?&?&?&A&B&C&D&_).
      apply limit1_none in A. apply limit1_none in B. apply limit1_none in C. apply limit1_none in D. auto. }
  destruct X as (A & B & C & D). intros k. unfold get_kind.
  destruct (String.eqb k "position"); [exact A|]. destruct (String.eqb k "velocity"); [exact B|].
  destruct (String.eqb k "effort"); [exact C|]. destruct (String.eqb k "acceleration"); [exact D|tauto].
Qed.
Lemma get_fill f d k : In k kinds -> get_kind (fill_data f d) k = f k (get_kind d k).
Proof. intros I. cbn in I. destruct I as [<-|[<-|[<-|[<-|[]]]]]; reflexivity. Qed.
Lemma data_refresh w j : data_of (refresh w j) j =
  {| t_act := fill_data (read_state w j) (t_act (data_of w j)); t_cmd := fill_data (read_cmd w j) (t_cmd (data_of w j)) |}.
Proof. unfold refresh. unfold data_of at 1. cbn. rewrite aget_aset_same. reflexivity. Qed.

(** -------------------------------------------------- the pass over one joint *)
Definition writable (w : world) (j : name) (n : name) : Prop := held w n /\ exists k, n = itf j k /\ In k kinds.
Lemma held_claimed w n : is_claimed w n = true -> held w n.
Proof. unfold is_claimed, held. destruct (aget (w_claims w) n) as [b|]; [intros ->; reflexivity|discriminate]. Qed.
Lemma touch_mono (P Q : name -> Prop) j w w' : (forall n, P n -> Q n) -> touch P j w w' -> touch Q j w w'.
Proof.
  intros PQ [A1 A2 A3 A4 A5 A6 A7 A8]. split; auto. intros n. specialize (A8 n). destruct (aget (w_cmds w) n); [|exact A8].
  destruct A8 as (c' & E & S & V). exists c'. split; [exact E|]. split; [exact S|]. destruct V; [left; assumption|right; auto].
Qed.
Lemma visit_touch w hw j m d p c (b : bool) dt : lim_get w hw j = Some m -> d = data_of (refresh w j) j ->
  run_limiter m (t_act d) (t_cmd d) dt = Done p c b ->
  touch (writable w j) j w (if b then write_back (lim_set (refresh w j) hw j (with_prev m p)) j c else lim_set (refresh w j) hw j (with_prev m p)).
Proof.
  intros L D R. assert (T : touch (writable w j) j w (lim_set (refresh w j) hw j (with_prev m p))).
  { eapply touch_trans; [apply touch_refresh|]. apply touch_lim. exact L. }
  destruct b; [|exact T]. eapply touch_trans; [exact T|]. apply touch_fold. intros k I G N.
  assert (G' : get_kind (t_cmd d) k <> None) by (intros E; apply G; eapply run_kinds; eauto).
  subst d. rewrite data_refresh in G'. cbn [t_cmd] in G'. rewrite get_fill in G' by exact I. unfold read_cmd in G'.
  cbn in N. destruct (aget (w_cmds w) (itf j k)) as [x|]; [|contradiction]. destruct (is_claimed w (itf j k)) eqn:C; [|contradiction].
  split; [apply held_claimed; exact C|]. exists k. auto.
Qed.
Lemma held_touch P j w w' n : touch P j w w' -> (held w' n <-> held w n).
Proof. intros T. unfold held. rewrite (to_cl _ _ _ _ T). tauto. Qed.
Lemma touch_writable P j w w1 w2 : touch P j w w1 -> touch (writable w1 j) j w1 w2 -> touch (writable w j) j w1 w2.
Proof. intros T. apply touch_mono. intros n (H & X). split; [|exact X]. apply (held_touch _ _ _ _ _ T). exact H. Qed.
Lemma joint_touch hws : forall w j dt acc w' r, enforce_joint hws w j dt acc = (w', r) -> touch (writable w j) j w w'.
Proof.
  induction hws as [|hw hws IH]; intros w j dt acc w' r H; cbn in H; [injection H as <- <-; apply touch_refl|].
  destruct (lim_get w hw j) as [m|] eqn:L; [|eapply IH; exact H].
  destruct (run_limiter m _ _ dt) as [p c b|p|] eqn:R.
  - pose proof (visit_touch w hw j m _ p c b dt L eq_refl R) as T. eapply touch_trans; [exact T|]. eapply touch_writable; [exact T|].
    eapply IH. exact H.
  - injection H as <- <-. eapply touch_trans; [apply touch_refresh|]. apply touch_lim. exact L.
  - injection H as <- <-. apply touch_refresh.
Qed.
(** a joint without a limiter: nothing happens *)
Lemma joint_none hws : forall w j dt acc, (forall hw, lim_get w hw j = None) -> enforce_joint hws w j dt acc = (w, ROk acc).
Proof. induction hws as [|hw hws IH]; intros w j dt acc H; cbn; [reflexivity|]. rewrite H. apply IH. exact H. Qed.
