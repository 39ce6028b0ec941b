(** RmInv.v -- invariants of the resource manager over all operation histories. *)
From Verif Require Import Base Events HwModel RmModel RmSys RmSpec HwProofs RmProofs.

(** ---------------------------------------------------------------- non-hardware operations *)
Definition hw_same (r r' : rm) : Prop := rm_hw r' = rm_hw r /\ rm_trace r' = rm_trace r.

Lemma hw_same_refl r : hw_same r r. Proof. split; reflexivity. Qed.

Lemma hw_same_trans a b c : hw_same a b -> hw_same b c -> hw_same a c.
Proof. intros [A B] [C D]. split; congruence. Qed.

Lemma hw_same_cache_one c r k : hw_same r (cache_one c r k).
Proof. unfold cache_one. destruct (find _ _); (split; reflexivity). Qed.
Lemma hw_same_cache c ks : forall r, hw_same r (cache_controller r c ks).
Proof.
  unfold cache_controller. induction ks as [|k ks IH]; intros r; simpl; [(split; reflexivity)|].
  destruct (IH (cache_one c r k)) as [A B]. destruct (hw_same_cache_one c r k) as [C D].
  split; congruence.
Qed.
Lemma hw_same_add_cmd ks : forall r, hw_same r (fst (add_cmd_itfs ks r)).
Proof.
  induction ks as [|k ks IH]; intros r; simpl; [(split; reflexivity)|].
  destruct (mem k (rm_ckeys r)); [(split; reflexivity)|].
  eapply hw_same_trans; [|apply IH]. split; reflexivity.
Qed.
Lemma hw_same_import_refs r c ks : hw_same r (fst (import_refs r c ks)).
Proof.
  unfold import_refs. pose proof (hw_same_add_cmd ks r) as H. destruct (add_cmd_itfs ks r) as [r1 []];
  exact H.
Qed.
Lemma hw_same_add_state ks : forall r, hw_same r (fst (add_state_itfs ks r)).
Proof.
  induction ks as [|k ks IH]; intros r; simpl; [(split; reflexivity)|].
  destruct (mem k (rm_skeys r)); [apply IH|].
  pose proof (IH (with_skeys r (rm_skeys r ++ [k]))) as H.
  destruct (add_state_itfs ks _) as [r' l]. exact H.
Qed.
Lemma hw_same_import_exps r c ks : hw_same r (import_exps r c ks).
Proof.
  unfold import_exps. pose proof (hw_same_add_state ks r) as H. destruct (add_state_itfs ks r); exact H.
Qed.
Lemma hw_same_remove_refs r c : hw_same r (remove_refs r c).
Proof. unfold remove_refs. destruct (aget _ _); (split; reflexivity). Qed.
Lemma hw_same_remove_exps r c : hw_same r (remove_exps r c).
Proof. unfold remove_exps. destruct (aget _ _); (split; reflexivity). Qed.
Lemma hw_same_claim r k : hw_same r (fst (claim_cmd r k)).
Proof. unfold claim_cmd. destruct (cmd_available r k); [|(split; reflexivity)].
       destruct (aget _ _) as [[]|]; (split; reflexivity). Qed.

Definition op_trace (s : sys) : rm := with_trace (sy_rm s) (EvOp :: rm_trace (sy_rm s)).

(** Every step is either a hardware evolution from the marked state or leaves hardware alone. *)
Lemma rstep_shape e allow s o :
  names_ok (sy_rm s) ->
  evolve (op_trace s) (sy_rm (fst (rstep e allow s o))) \/
  hw_same (op_trace s) (sy_rm (fst (rstep e allow s o))).
Proof.
  intros Hn. assert (Hn' : names_ok (op_trace s)) by exact Hn. fold (op_trace s).
  unfold rstep. fold (op_trace s).
  destruct o.
  - left. destruct (set_component_state_ok e (op_trace s) h target Hn') as [[H _ _] _].
    destruct (set_component_state _ _ _ _). exact H.
  - left. pose proof (shutdown_components_evolve e _ Hn') as H.
    destruct (shutdown_components _ _). exact H.
  - left. pose proof (rm_read_evolve e _ Hn') as H. destruct (rm_read _ _). exact H.
  - left. pose proof (rm_write_evolve e _ Hn') as H. destruct (rm_write _ _). exact H.
  - right. pose proof (hw_same_claim (op_trace s) k) as H. destruct (claim_cmd _ _). exact H.
  - right. destruct (mem k (sy_loans s)); (split; reflexivity).
  - right. pose proof (hw_same_import_refs (op_trace s) c ks) as H. destruct (import_refs _ _ _). exact H.
  - right. apply hw_same_remove_refs.
  - right. unfold make_refs_available. destruct (aget (rm_refs _) _); (split; reflexivity).
  - right. unfold make_refs_unavailable. destruct (aget (rm_refs _) _); (split; reflexivity).
  - right. apply hw_same_import_exps.
  - right. apply hw_same_remove_exps.
  - right. unfold make_exps_available. destruct (aget (rm_exps _) _); (split; reflexivity).
  - right. unfold make_exps_unavailable. destruct (aget (rm_exps _) _); (split; reflexivity).
  - right. apply hw_same_cache.
  - left. destruct (rm_prepare_evolve e allow (op_trace s) start stop Hn') as [H _].
    destruct (rm_prepare _ _ _ _ _). exact H.
  - left. destruct (rm_perform_evolve e allow (op_trace s) start stop Hn') as [H _].
    destruct (rm_perform _ _ _ _ _). exact H.
Qed.

Lemma find_hw_same r r' n : rm_hw r' = rm_hw r -> find_hw r' n = find_hw r n.
Proof. unfold find_hw. intros ->. reflexivity. Qed.

Lemma Lives_same r r' : hw_same r r' -> Lives r -> Lives r'.
Proof.
  intros [A B] H n h Hf. rewrite B. apply H. rewrite <- Hf. symmetry. apply find_hw_same. exact A.
Qed.

Lemma Lives_op s : Lives (sy_rm s) -> Lives (op_trace s).
Proof.
  intros H n h Hf. cbn [op_trace rm_trace with_trace lives]. rewrite (H n h Hf). reflexivity.
Qed.

Record RInv (s : sys) : Prop := { ri_names : names_ok (sy_rm s); ri_lives : Lives (sy_rm s) }.

Lemma rstep_RInv e allow s o : RInv s -> RInv (fst (rstep e allow s o)).
Proof.
  intros [H1 H2]. destruct (rstep_shape e allow s o H1) as [H|H].
  - constructor.
    + eapply names_ok_evolve; [exact H|]. exact H1.
    + apply (ev_lives _ _ H). apply Lives_op. exact H2.
  - constructor.
    + unfold names_ok. destruct H as [-> _]. exact H1.
    + eapply Lives_same; [exact H|]. apply Lives_op. exact H2.
Qed.

Lemma rrun_ind e allow (P : sys -> Prop) ops : forall s,
  (forall s o, P s -> P (fst (rstep e allow s o))) -> P s -> P (rrun e allow s ops).
Proof.
  induction ops as [|o ops IH]; intros s Hs HP; simpl; [exact HP|]. apply IH; auto.
Qed.

Lemma map_name_set hs : map h_name (map (fun h => set_lc h Unconfigured) hs) = map h_name hs.
Proof. rewrite map_map. apply map_ext. reflexivity. Qed.

Lemma find_start_lc hs n h : find_hw (rm_start hs) n = Some h -> h_lc h = Unconfigured.
Proof.
  intros H. apply find_hw_In in H. simpl in H. apply in_map_iff in H.
  destruct H as (x & <- & _). reflexivity.
Qed.

Lemma start_RInv hs : wf_hw hs -> RInv (sys_start hs).
Proof.
  intros [Hn _ _]. constructor.
  - unfold names_ok. simpl. rewrite map_name_set. exact Hn.
  - intros n h Hf. simpl. rewrite (find_start_lc _ _ _ Hf). reflexivity.
Qed.

Lemma reach_RInv e allow hs ops : wf_hw hs -> RInv (rrun e allow (sys_start hs) ops).
Proof. intros H. apply rrun_ind; [intros; apply rstep_RInv; assumption | apply start_RInv; exact H]. Qed.

(** ---------------------------------------------------------------- static data over histories *)
Definition statics (r : rm) : list hwc := map (fun h => set_lc h Unknown) (rm_hw r).

Lemma static_eq h h' : same_static h h' -> set_lc h' Unknown = set_lc h Unknown.
Proof.
  intros (A & B & C & D & E & F). unfold set_lc. congruence.
Qed.

Lemma evolve_statics r r' : evolve r r' -> statics r' = statics r.
Proof.
  intros [H _ _ _ _ _ _ _ _]. unfold statics. induction H as [|a b l1 l2 S H IH]; simpl; [reflexivity|].
  rewrite (static_eq _ _ S). congruence.
Qed.

Lemma rstep_statics e allow s o : names_ok (sy_rm s) ->
  statics (sy_rm (fst (rstep e allow s o))) = statics (sy_rm s).
Proof.
  intros Hn. destruct (rstep_shape e allow s o Hn) as [H|[H _]].
  - rewrite (evolve_statics _ _ H). reflexivity.
  - unfold statics. rewrite H. reflexivity.
Qed.

(** ---------------------------------------------------------------- C03: finalized stays *)
Lemma set_state_finalized_self e r n h target : find_hw r n = Some h -> h_lc h = Finalized ->
  fst (set_component_state e r n target) = r.
Proof.
  intros Hf Hl. unfold set_component_state. rewrite Hf. unfold set_state_of. rewrite Hl.
  destruct target; reflexivity.
Qed.

Definition stays_final (n : name) (r r' : rm) : Prop :=
  forall h, find_hw r n = Some h -> h_lc h = Finalized -> find_hw r' n = Some h.

Lemma stays_refl n r : stays_final n r r. Proof. intros h H _. exact H. Qed.
Lemma stays_trans n a b c : stays_final n a b -> stays_final n b c -> stays_final n a c.
Proof. intros H1 H2 h H Hl. apply H2; [apply H1; assumption | exact Hl]. Qed.

Lemma set_component_stays e r m n target : names_ok r ->
  stays_final n r (fst (set_component_state e r m target)).
Proof.
  intros Hn h Hf Hl. destruct (String.eqb_spec n m) as [->|E].
  - rewrite (set_state_finalized_self e r m h target Hf Hl). exact Hf.
  - destruct (set_component_state_ok e r m target Hn) as [[_ H _] _]. rewrite H; assumption.
Qed.

Lemma shutdown_stays_aux e n l : forall r b, names_ok r ->
  stays_final n r (fst (fold_left (fun '(r, ok) n =>
     let '(r', b) := set_component_state e r n Finalized in (r', ok && b)) l (r, b))).
Proof.
  induction l as [|m l IH]; intros r b Hn; simpl; [apply stays_refl|].
  pose proof (set_component_stays e r m n Finalized Hn) as H.
  destruct (set_component_state_ok e r m Finalized Hn) as [[K _ _] _].
  destruct (set_component_state e r m Finalized) as [r1 b1]. simpl in *.
  eapply stays_trans; [exact H|]. apply IH. eapply names_ok_evolve; eassumption.
Qed.

Definition groupless (n : name) (r : rm) : Prop :=
  forall h, find_hw r n = Some h -> h_group h = ""%string.

Lemma groupless_evolve n r r' : evolve r r' -> groupless n r -> groupless n r'.
Proof.
  intros H G h' Hf. destruct (evolve_find_back _ _ _ _ H Hf) as (h & Hh & S).
  destruct S as (_ & _ & -> & _). apply G. exact Hh.
Qed.

Lemma read_one_stays e r st m n : names_ok r -> groupless n r ->
  stays_final n r (fst (read_one e (r, st) m)).
Proof.
  intros Hn G h Hf Hl. destruct (String.eqb_spec n m) as [->|E].
  - unfold read_one. rewrite Hf. destruct (e_locked _ _ _); [exact Hf|].
    unfold read_ret, update_group. rewrite (G h Hf).
    destruct (h_rated h && _); simpl; [exact Hf|].
    unfold hw_read. rewrite Hl. simpl. 
    change (find_hw (put_hw r h) m = Some h). eapply find_put_same; [exact Hf|].
    eapply find_hw_name; exact Hf.
  - destruct (read_one_only e r st m Hn) as [_ H _]. rewrite H; assumption.
Qed.

Lemma write_one_stays e r st m n : names_ok r -> groupless n r ->
  stays_final n r (fst (write_one e (r, st) m)).
Proof.
  intros Hn G h Hf Hl. destruct (String.eqb_spec n m) as [->|E].
  - unfold write_one. rewrite Hf. destruct (e_locked _ _ _); [exact Hf|].
    unfold write_ret, update_group. rewrite (G h Hf).
    destruct (h_rated h && _); simpl; [exact Hf|].
    unfold hw_write. rewrite Hl.
    destruct (h_kind h); simpl; (change (find_hw (put_hw r h) m = Some h); eapply find_put_same;
      [exact Hf|eapply find_hw_name; exact Hf]).
  - destruct (write_one_only e r st m Hn) as [_ H _]. rewrite H; assumption.
Qed.

Lemma fold_stays {B} (f : rm * B -> name -> rm * B) n l : forall r b,
  (forall r b m, names_ok r -> groupless n r ->
     evolve r (fst (f (r, b) m)) /\ stays_final n r (fst (f (r, b) m))) ->
  names_ok r -> groupless n r -> stays_final n r (fst (fold_left f l (r, b))).
Proof.
  induction l as [|m l IH]; intros r b Hf Hn G; simpl; [apply stays_refl|].
  destruct (Hf r b m Hn G) as [H1 H2]. destruct (f (r, b) m) as [r1 b1]. simpl in *.
  eapply stays_trans; [exact H2|]. apply IH; [exact Hf| |].
  - eapply names_ok_evolve; eassumption.
  - eapply groupless_evolve; eassumption.
Qed.

Lemma rstep_stays e allow s o n : names_ok (sy_rm s) ->
  (groupless n (sy_rm s) \/ (o <> ORead /\ o <> OWrite)) ->
  stays_final n (sy_rm s) (sy_rm (fst (rstep e allow s o))).
Proof.
  intros Hn G. assert (Hn' : names_ok (op_trace s)) by exact Hn.
  change (stays_final n (op_trace s) (sy_rm (fst (rstep e allow s o)))).
  assert (Hsame : forall r', hw_same (op_trace s) r' -> stays_final n (op_trace s) r').
  { intros r' [A _] h Hf _. rewrite (find_hw_same _ _ n A). exact Hf. }
  assert (Hsame2 : forall r', rm_hw r' = rm_hw (op_trace s) -> stays_final n (op_trace s) r').
  { intros r' A h Hf _. rewrite (find_hw_same _ _ n A). exact Hf. }
  unfold rstep. fold (op_trace s). destruct o.
  - pose proof (set_component_stays e (op_trace s) h n target Hn') as H.
    destruct (set_component_state _ _ _ _). exact H.
  - pose proof (shutdown_stays_aux e n (map h_name (rm_hw (op_trace s))) (op_trace s) true Hn') as H.
    unfold shutdown_components. destruct (fold_left _ _ _). exact H.
  - destruct G as [G|[C _]]; [|congruence].
    pose proof (fold_stays (read_one e) n (map h_name (rm_hw (op_trace s))) (op_trace s) rw_ok) as H.
    unfold rm_read. destruct (fold_left (read_one e) _ _). apply H; auto.
    intros rr bb m K1 K2. split; [apply (on_ev m); apply read_one_only; exact K1|].
    apply read_one_stays; assumption.
  - destruct G as [G|[_ C]]; [|congruence].
    pose proof (fold_stays (write_one e) n (map h_name (filter (fun h => negb (is_sensor h)) (rm_hw (op_trace s)))) (op_trace s) rw_ok) as H.
    unfold rm_write. destruct (fold_left (write_one e) _ _). apply H; auto.
    intros rr bb m K1 K2. split; [apply (on_ev m); apply write_one_only; exact K1|].
    apply write_one_stays; assumption.
  - pose proof (hw_same_claim (op_trace s) k) as H. destruct (claim_cmd _ _). apply Hsame. exact H.
  - apply Hsame. destruct (mem k (sy_loans s)); (split; reflexivity).
  - pose proof (hw_same_import_refs (op_trace s) c ks) as H. destruct (import_refs _ _ _). apply Hsame. exact H.
  - apply Hsame. apply hw_same_remove_refs.
  - apply Hsame. unfold make_refs_available. destruct (aget (rm_refs _) _); (split; reflexivity).
  - apply Hsame. unfold make_refs_unavailable. destruct (aget (rm_refs _) _); (split; reflexivity).
  - apply Hsame. apply hw_same_import_exps.
  - apply Hsame. apply hw_same_remove_exps.
  - apply Hsame. unfold make_exps_available. destruct (aget (rm_exps _) _); (split; reflexivity).
  - apply Hsame. unfold make_exps_unavailable. destruct (aget (rm_exps _) _); (split; reflexivity).
  - apply Hsame. apply hw_same_cache.
  - destruct (rm_prepare_evolve e allow (op_trace s) start stop Hn') as [_ H].
    destruct (rm_prepare _ _ _ _ _). apply Hsame2. exact H.
  - destruct (rm_perform_evolve e allow (op_trace s) start stop Hn') as [_ H].
    destruct (rm_perform _ _ _ _ _). apply Hsame2. exact H.
Qed.

(** ---------------------------------------------------------------- C06/C07: exclusive loans *)

Definition loan_count (k : name) (s : sys) : nat :=
  count_occ string_dec (sy_loans s) k.

(** for key k: at most one loan, and a live loan implies the claimed flag *)
Definition excl (k : name) (s : sys) : Prop :=
  loan_count k s <= 1 /\ (loan_count k s = 1 -> aget (rm_claimed (sy_rm s)) k = Some true).

Definition claimed_same (r r' : rm) : Prop := rm_claimed r' = rm_claimed r.

Lemma claimed_same_cache c ks : forall r, claimed_same r (cache_controller r c ks).
Proof.
  unfold cache_controller. induction ks as [|k ks IH]; intros r; simpl; [reflexivity|].
  unfold claimed_same in *. rewrite IH. unfold cache_one. destruct (find _ _); reflexivity.
Qed.

Lemma claimed_same_import_exps r c ks : claimed_same r (import_exps r c ks).
Proof.
  unfold import_exps. assert (H : forall ks r, claimed_same r (fst (add_state_itfs ks r))).
  { clear. induction ks as [|k ks IH]; intros r; simpl; [reflexivity|].
    destruct (mem k (rm_skeys r)); [apply IH|].
    pose proof (IH (with_skeys r (rm_skeys r ++ [k]))) as H. destruct (add_state_itfs ks _). exact H. }
  specialize (H ks r). destruct (add_state_itfs ks r). exact H.
Qed.

Lemma add_cmd_claimed ks : forall r k v, aget (rm_claimed r) k = Some v ->
  aget (rm_claimed (fst (add_cmd_itfs ks r))) k = Some v.
Proof.
  induction ks as [|k0 ks IH]; intros r k v H; simpl; [exact H|].
  destruct (mem k0 (rm_ckeys r)); [exact H|]. apply IH. simpl.
  destruct (aget (rm_claimed r) k0) eqn:E; [exact H|].
  rewrite aget_aset. destruct (String.eqb_spec k k0); [congruence|exact H].
Qed.

Lemma import_refs_claimed r c ks k v : aget (rm_claimed r) k = Some v ->
  aget (rm_claimed (fst (import_refs r c ks))) k = Some v.
Proof.
  intros H. unfold import_refs. pose proof (add_cmd_claimed ks r k v H) as K.
  destruct (add_cmd_itfs ks r) as [r1 []]; exact K.
Qed.

Lemma fold_adel_other ks : forall (m : alist bool) k, ~ In k ks ->
  aget (fold_left (fun m k => adel m k) ks m) k = aget m k.
Proof.
  induction ks as [|k0 ks IH]; intros m k H; simpl; [reflexivity|].
  rewrite IH by (intro C; apply H; right; exact C).
  rewrite aget_adel. destruct (String.eqb_spec k k0) as [->|]; [|reflexivity].
  exfalso. apply H. left. reflexivity.
Qed.

Lemma count_cons_eq k l : count_occ string_dec (k :: l) k = S (count_occ string_dec l k).
Proof. simpl. destruct (string_dec k k); congruence. Qed.
Lemma count_cons_neq k k' l : k' <> k -> count_occ string_dec (k' :: l) k = count_occ string_dec l k.
Proof. intros H. simpl. destruct (string_dec k' k); congruence. Qed.

Lemma count_remove1_eq k l : In k l ->
  count_occ string_dec (remove1 k l) k = pred (count_occ string_dec l k).
Proof.
  induction l as [|x l IH]; simpl; [tauto|]. intros H.
  destruct (String.eqb_spec k x) as [->|E].
  - destruct (string_dec x x); [reflexivity|congruence].
  - destruct (string_dec x k); [congruence|]. simpl.
    destruct (string_dec x k); [congruence|]. apply IH. destruct H; [congruence|assumption].
Qed.
Lemma count_remove1_neq k k' l : k' <> k ->
  count_occ string_dec (remove1 k' l) k = count_occ string_dec l k.
Proof.
  intros H. induction l as [|x l IH]; simpl; [reflexivity|].
  destruct (String.eqb_spec k' x) as [->|E].
  - destruct (string_dec x k); [congruence|reflexivity].
  - simpl. destruct (string_dec x k); rewrite IH; reflexivity.
Qed.

(** the reference interfaces removed by this operation, if any *)
Definition removed_by (s : sys) (o : rop) : list name :=
  match o with
  | ORemoveRefs c => match aget (rm_refs (sy_rm s)) c with Some ks => ks | None => [] end
  | _ => []
  end.

Lemma rstep_excl e allow s o k :
  names_ok (sy_rm s) ->
  excl k s ->
  (In k (removed_by s o) -> loan_count k s = 0) ->
  excl k (fst (rstep e allow s o)).
Proof.
  intros Hn [H1 H2] Hrm. assert (Hn' : names_ok (op_trace s)) by exact Hn.
  assert (Hk : forall r', claimed_same (op_trace s) r' -> excl k (mk r' (sy_loans s))).
  { intros r' Hc. split; [exact H1|]. intros Hx. simpl. rewrite Hc. apply H2. exact Hx. }
  assert (Hev : forall r', evolve (op_trace s) r' -> excl k (mk r' (sy_loans s))).
  { intros r' Hx. apply Hk. apply (ev_claimed _ _ Hx). }
  unfold rstep. fold (op_trace s). destruct o.
  - destruct (set_component_state_ok e (op_trace s) h target Hn') as [[H _ _] _].
    destruct (set_component_state _ _ _ _). apply Hev. exact H.
  - pose proof (shutdown_components_evolve e _ Hn') as H.
    destruct (shutdown_components _ _). apply Hev. exact H.
  - pose proof (rm_read_evolve e _ Hn') as H. destruct (rm_read _ _). apply Hev. exact H.
  - pose proof (rm_write_evolve e _ Hn') as H. destruct (rm_write _ _). apply Hev. exact H.
  - (* claim *)
    unfold claim_cmd. destruct (cmd_available (op_trace s) k0); [|apply Hk; reflexivity].
    destruct (aget (rm_claimed (op_trace s)) k0) as [[]|] eqn:E; try (apply Hk; reflexivity).
    change (aget (rm_claimed (sy_rm s)) k0 = Some false) in E.
    destruct (String.eqb_spec k k0) as [->|Hne].
    + assert (Z : loan_count k0 s = 0).
      { destruct (loan_count k0 s) as [|[|c]] eqn:Ec; [reflexivity| |lia].
        rewrite (H2 eq_refl) in E. discriminate. }
      split; simpl; unfold loan_count in *; simpl.
      * destruct (mem k0 _); [rewrite count_cons_eq|]; lia.
      * intros _. apply aget_aset_same.
    + split; simpl; unfold loan_count in *; simpl.
      * destruct (mem k0 _); [rewrite count_cons_neq by congruence|]; exact H1.
      * rewrite aget_aset_other by congruence.
        destruct (mem k0 _); [rewrite count_cons_neq by congruence|]; exact H2.
  - (* release *)
    destruct (mem k0 (sy_loans s)) eqn:E; [|apply Hk; reflexivity].
    apply mem_In in E. destruct (String.eqb_spec k k0) as [->|Hne].
    + assert (Z : count_occ string_dec (sy_loans s) k0 = 1).
      { unfold loan_count in H1. pose proof (proj1 (count_occ_In string_dec (sy_loans s) k0) E). lia. }
      split; unfold loan_count in *; simpl; rewrite count_remove1_eq by exact E; rewrite Z; simpl; [lia|discriminate].
    + split; unfold loan_count in *; simpl; rewrite count_remove1_neq by congruence; [exact H1|].
      rewrite aget_aset_other by congruence. exact H2.
  - (* import *)
    pose proof (fun v => import_refs_claimed (op_trace s) c ks k v) as H.
    destruct (import_refs (op_trace s) c ks) as [r' b]. simpl in *.
    split; [exact H1|]. intros Hx. apply H. apply H2. exact Hx.
  - (* remove *)
    split; [exact H1|]. intros Hx. simpl. unfold remove_refs. simpl in Hrm.
    change (rm_refs (op_trace s)) with (rm_refs (sy_rm s)).
    destruct (aget (rm_refs (sy_rm s)) c) as [ks|]; [|apply H2; exact Hx]. simpl.
    rewrite fold_adel_other; [apply H2; exact Hx|].
    intros C. change (loan_count k s = 1) in Hx. rewrite (Hrm C) in Hx. discriminate.
  - unfold make_refs_available. destruct (aget (rm_refs _) _); apply Hk; reflexivity.
  - unfold make_refs_unavailable. destruct (aget (rm_refs _) _); apply Hk; reflexivity.
  - apply Hk. apply claimed_same_import_exps.
  - apply Hk. unfold claimed_same, remove_exps. destruct (aget (rm_exps _) _); reflexivity.
  - unfold make_exps_available. destruct (aget (rm_exps _) _); apply Hk; reflexivity.
  - unfold make_exps_unavailable. destruct (aget (rm_exps _) _); apply Hk; reflexivity.
  - apply Hk. apply claimed_same_cache.
  - destruct (rm_prepare_evolve e allow (op_trace s) start stop Hn') as [H _].
    destruct (rm_prepare _ _ _ _ _). apply Hev. exact H.
  - destruct (rm_perform_evolve e allow (op_trace s) start stop Hn') as [H _].
    destruct (rm_perform _ _ _ _ _). apply Hev. exact H.
Qed.

Lemma start_excl hs k : excl k (sys_start hs).
Proof. split; unfold loan_count; simpl; [lia|discriminate]. Qed.

(** Reference interfaces never are hardware command interfaces. *)
Definition hw_cmds (r : rm) : list name := flat_map h_cmd (rm_hw r).
Definition hw_states (r : rm) : list name := flat_map h_state (rm_hw r).

Record KInv (r : rm) : Prop := {
  ki_c : forall k, In k (hw_cmds r) -> In k (rm_ckeys r);
  ki_s : forall k, In k (hw_states r) -> In k (rm_skeys r);
  ki_refs : forall c ks k, aget (rm_refs r) c = Some ks -> In k ks -> ~ In k (hw_cmds r);
  ki_exps : forall c ks k, aget (rm_exps r) c = Some ks -> In k ks -> ~ In k (hw_states r);
  ki_nd : NoDup (rm_ckeys r);
  ki_nds : NoDup (rm_skeys r)
}.

Lemma hw_cmds_statics r : hw_cmds r = flat_map h_cmd (statics r).
Proof. unfold hw_cmds, statics. induction (rm_hw r) as [|h l IH]; simpl; congruence. Qed.
Lemma hw_states_statics r : hw_states r = flat_map h_state (statics r).
Proof. unfold hw_states, statics. induction (rm_hw r) as [|h l IH]; simpl; congruence. Qed.

Lemma KInv_ext r r' :
  statics r' = statics r -> rm_ckeys r' = rm_ckeys r -> rm_skeys r' = rm_skeys r ->
  rm_refs r' = rm_refs r -> rm_exps r' = rm_exps r -> KInv r -> KInv r'.
Proof.
  intros A B C D E [K1 K2 K3 K4 K5 K6].
  constructor; rewrite ?hw_cmds_statics, ?hw_states_statics, ?A, ?B, ?C, ?D, ?E;
    rewrite <- ?hw_cmds_statics, <- ?hw_states_statics; assumption.
Qed.

Lemma NoDup_snoc (k : name) l : NoDup l -> ~ In k l -> NoDup (l ++ [k]).
Proof.
  intros H Hk. induction H as [|x l Hx Hl IH]; simpl.
  - constructor; [tauto|constructor].
  - constructor.
    + rewrite in_app_iff. simpl. intros [C|[C|[]]]; [tauto|]. subst. apply Hk. left. reflexivity.
    + apply IH. intro C. apply Hk. right. exact C.
Qed.

Lemma add_cmd_KInv ks : forall r, KInv r ->
  KInv (fst (add_cmd_itfs ks r)) /\ rm_hw (fst (add_cmd_itfs ks r)) = rm_hw r /\
  rm_refs (fst (add_cmd_itfs ks r)) = rm_refs r /\
  (snd (add_cmd_itfs ks r) = true -> forall k, In k ks -> ~ In k (hw_cmds r)).
Proof.
  induction ks as [|k ks IH]; intros r K; simpl.
  - repeat split; auto; apply K.
  - destruct (mem k (rm_ckeys r)) eqn:E; simpl.
    + split; [exact K|]. repeat split. discriminate.
    + apply mem_false in E.
      set (r1 := with_cmap r _ _).
      assert (K1 : KInv r1).
      { destruct K as [A B C D N1 N2]. constructor; simpl; auto.
        - intros k0 Hk. apply in_app_iff. left. apply A. exact Hk.
        - apply NoDup_snoc; assumption. }
      destruct (IH r1 K1) as (I1 & I2 & I2' & I3). split; [exact I1|]. split; [exact I2|].
      split; [exact I2'|].
      intros Hs k0 [<-|Hk]; [|apply I3; assumption].
      intros C. apply E. apply (ki_c _ K). exact C.
Qed.

Lemma add_state_KInv ks : forall r, KInv r ->
  KInv (fst (add_state_itfs ks r)) /\ rm_hw (fst (add_state_itfs ks r)) = rm_hw r /\
  rm_exps (fst (add_state_itfs ks r)) = rm_exps r /\
  (forall k, In k (snd (add_state_itfs ks r)) -> ~ In k (hw_states r)).
Proof.
  induction ks as [|k ks IH]; intros r K; simpl.
  - repeat split; auto; apply K.
  - destruct (mem k (rm_skeys r)) eqn:E; simpl.
    + apply IH. exact K.
    + apply mem_false in E.
      set (r1 := with_skeys r (rm_skeys r ++ [k])).
      assert (K1 : KInv r1).
      { destruct K as [A B C D N1 N2]. constructor; simpl; auto.
        - intros k0 Hk. apply in_app_iff. left. apply B. exact Hk.
        - apply NoDup_snoc; assumption. }
      destruct (IH r1 K1) as (I1 & I2 & I2' & I3).
      destruct (add_state_itfs ks r1) as [r2 added]. simpl in *.
      repeat split; auto; try apply I1.
      intros k0 [<-|Hk]; [|apply I3; assumption].
      intros C. apply E. apply (ki_s _ K). exact C.
Qed.

Lemma remove_items_keep xs (l : list name) k : ~ In k xs -> In k l -> In k (remove_items l xs).
Proof.
  revert l. induction xs as [|x xs IH]; intros l Hn Hi; unfold remove_items in *; simpl; [exact Hi|].
  apply IH; [intro C; apply Hn; right; exact C|].
  apply In_remove1_neq; [|exact Hi]. intros ->. apply Hn. left. reflexivity.
Qed.

Lemma rstep_KInv e allow s o : names_ok (sy_rm s) ->
  KInv (sy_rm s) -> KInv (sy_rm (fst (rstep e allow s o))).
Proof.
  intros Hn K. assert (Hn' : names_ok (op_trace s)) by exact Hn.
  assert (K' : KInv (op_trace s)) by (eapply KInv_ext; [..|exact K]; reflexivity).
  assert (Hev : forall r', evolve (op_trace s) r' -> KInv r').
  { intros r' Hx. eapply KInv_ext; [..|exact K'].
    - apply evolve_statics. exact Hx.
    - apply (ev_ckeys _ _ Hx).
    - apply (ev_skeys _ _ Hx).
    - apply (ev_refs _ _ Hx).
    - apply (ev_exps _ _ Hx). }
  unfold rstep. fold (op_trace s). destruct o.
  - destruct (set_component_state_ok e (op_trace s) h target Hn') as [[H _ _] _].
    destruct (set_component_state _ _ _ _). apply Hev. exact H.
  - pose proof (shutdown_components_evolve e _ Hn') as H.
    destruct (shutdown_components _ _). apply Hev. exact H.
  - pose proof (rm_read_evolve e _ Hn') as H. destruct (rm_read _ _). apply Hev. exact H.
  - pose proof (rm_write_evolve e _ Hn') as H. destruct (rm_write _ _). apply Hev. exact H.
  - unfold claim_cmd. destruct (cmd_available _ _); [|exact K'].
    destruct (aget _ _) as [[]|]; (eapply KInv_ext; [..|exact K']; reflexivity).
  - destruct (mem k (sy_loans s)); (eapply KInv_ext; [..|exact K']; reflexivity).
  - unfold import_refs. destruct (add_cmd_KInv ks (op_trace s) K') as (A & B & B' & C).
    destruct (add_cmd_itfs ks (op_trace s)) as [r1 ok]. simpl in *.
    destruct ok; [|exact A]. simpl. destruct A as [A1 A2 A3 A4 A5 A6].
    constructor; simpl; auto.
    intros c0 ks0 k. rewrite aget_aset. destruct (String.eqb c0 c).
    + intros X; inversion X; subst ks0. intros Hk. unfold hw_cmds. simpl. rewrite B. apply C; auto.
    + apply A3.
  - unfold remove_refs. destruct (aget (rm_refs (op_trace s)) c) as [ks|] eqn:E; [|exact K'].
    destruct K' as [A1 A2 A3 A4 A5 A6]. constructor; simpl; auto.
    + intros k Hk. apply remove_items_keep; [|apply A1; exact Hk].
      intro Hc. exact (A3 c ks k E Hc Hk).
    + intros c0 ks0 k. simpl. change (rm_refs (op_trace s)) with (rm_refs (sy_rm s)) in *.
      rewrite aget_adel. destruct (String.eqb c0 c); [discriminate|]. apply A3.
    + apply remove_items_spec. exact A5.
  - unfold make_refs_available. destruct (aget (rm_refs _) _); (eapply KInv_ext; [..|exact K']; reflexivity).
  - unfold make_refs_unavailable. destruct (aget (rm_refs _) _); (eapply KInv_ext; [..|exact K']; reflexivity).
  - unfold import_exps. destruct (add_state_KInv ks (op_trace s) K') as (A & B & B' & C).
    destruct (add_state_itfs ks (op_trace s)) as [r1 added]. simpl in *.
    destruct A as [A1 A2 A3 A4 A5 A6].
    constructor; simpl; auto.
    intros c0 ks0 k. rewrite aget_aset. destruct (String.eqb c0 c).
    + intros X; inversion X; subst ks0. intros Hk. unfold hw_states. simpl. rewrite B. apply C; auto.
    + apply A4.
  - unfold remove_exps. destruct (aget (rm_exps (op_trace s)) c) as [ks|] eqn:E; [|exact K'].
    destruct K' as [A1 A2 A3 A4 A5 A6]. constructor; simpl; auto.
    + intros k Hk. apply remove_items_keep; [|apply A2; exact Hk].
      intro Hc. exact (A4 c ks k E Hc Hk).
    + intros c0 ks0 k. simpl. change (rm_exps (op_trace s)) with (rm_exps (sy_rm s)) in *.
      rewrite aget_adel. destruct (String.eqb c0 c); [discriminate|]. apply A4.
    + apply remove_items_spec. exact A6.
  - unfold make_exps_available. destruct (aget (rm_exps _) _); (eapply KInv_ext; [..|exact K']; reflexivity).
  - unfold make_exps_unavailable. destruct (aget (rm_exps _) _); (eapply KInv_ext; [..|exact K']; reflexivity).
  - simpl. assert (G : forall ks r, KInv r -> KInv (cache_controller r c ks)).
    { clear. unfold cache_controller. induction ks as [|k ks IH]; intros r H; simpl; [exact H|].
      apply IH. unfold cache_one. destruct (find _ _); [|exact H].
      eapply KInv_ext; [..|exact H]; reflexivity. }
    apply G. exact K'.
  - destruct (rm_prepare_evolve e allow (op_trace s) start stop Hn') as [H _].
    destruct (rm_prepare _ _ _ _ _). apply Hev. exact H.
  - destruct (rm_perform_evolve e allow (op_trace s) start stop Hn') as [H _].
    destruct (rm_perform _ _ _ _ _). apply Hev. exact H.
Qed.

Lemma flat_map_set {A} (f : hwc -> list A) hs :
  (forall h l, f (set_lc h l) = f h) ->
  flat_map f (map (fun h => set_lc h Unconfigured) hs) = flat_map f hs.
Proof. intros H. induction hs as [|h hs IH]; simpl; [reflexivity|]. rewrite H, IH. reflexivity. Qed.

Lemma start_KInv hs : wf_hw hs -> KInv (rm_start hs).
Proof.
  intros [A B C]. constructor; simpl; unfold hw_cmds, hw_states; simpl;
    rewrite ?flat_map_set by reflexivity; auto; discriminate.
Qed.

(** combined invariant *)
Record AInv (s : sys) : Prop := { ai_r : RInv s; ai_k : KInv (sy_rm s) }.
Lemma rstep_AInv e allow s o : AInv s -> AInv (fst (rstep e allow s o)).
Proof. intros [A B]. constructor; [apply rstep_RInv; exact A|apply rstep_KInv; [apply A|exact B]]. Qed.
Lemma reach_AInv e allow hs ops : wf_hw hs -> AInv (rrun e allow (sys_start hs) ops).
Proof.
  intros H. apply rrun_ind; [intros; apply rstep_AInv; assumption|].
  constructor; [apply start_RInv; exact H | apply start_KInv; exact H].
Qed.

(** hardware command interfaces: exclusivity for every history *)
Lemma hw_exclusive e allow hs ops k : wf_hw hs -> In k (flat_map h_cmd hs) ->
  excl k (rrun e allow (sys_start hs) ops).
Proof.
  intros Hwf Hk.
  assert (G : forall s, AInv s -> excl k s -> In k (hw_cmds (sy_rm s)) ->
             excl k (rrun e allow s ops)).
  { induction ops as [|o ops IH]; intros s HA HE HK; simpl; [exact HE|].
    apply IH.
    - apply rstep_AInv. exact HA.
    - apply rstep_excl; [apply HA|exact HE|].
      intros Hr. exfalso. unfold removed_by in Hr. destruct o; try destruct Hr.
      destruct (aget (rm_refs (sy_rm s)) c) as [ks|] eqn:E; [|destruct Hr].
      exact (ki_refs _ (ai_k _ HA) c ks k E Hr HK).
    - rewrite hw_cmds_statics, rstep_statics by apply HA. rewrite <- hw_cmds_statics. exact HK. }
  apply G.
  - constructor; [apply start_RInv; exact Hwf | apply start_KInv; exact Hwf].
  - apply start_excl.
  - unfold hw_cmds. simpl. rewrite flat_map_set by reflexivity. exact Hk.
Qed.

(** all interfaces: exclusivity as long as reference interfaces on loan are never removed *)
Fixpoint no_removal_on_loan (e : env) (allow : bool) (s : sys) (ops : list rop) : Prop :=
  match ops with
  | [] => True
  | o :: ops' =>
      (forall k, In k (removed_by s o) -> ~ In k (sy_loans s)) /\
      no_removal_on_loan e allow (fst (rstep e allow s o)) ops'
  end.

Lemma all_exclusive e allow ops k : forall s, AInv s -> excl k s ->
  no_removal_on_loan e allow s ops -> excl k (rrun e allow s ops).
Proof.
  induction ops as [|o ops IH]; intros s HA HE HR; simpl; [exact HE|]. destruct HR as [H1 H2].
  apply IH; [apply rstep_AInv; exact HA| |exact H2].
  apply rstep_excl; [apply HA|exact HE|]. intros Hk. unfold loan_count.
  apply count_occ_not_In. apply H1. exact Hk.
Qed.
