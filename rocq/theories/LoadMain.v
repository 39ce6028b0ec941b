(** LoadMain.v -- the theorems about loading, from the invariant of LoadProofs. *)
From Coq Require Import Permutation Arith Lia.
From Verif Require Import Base Events HwModel RmModel RmSys LoadModel LoadSpec LoadProofs.
Open Scope string_scope. Open Scope nat_scope. Open Scope list_scope.

Lemma load_true e le ur ds s0 s : load e le ur ds s0 = (s, true) ->
  load_all e le ur ds s0 = (s, true) /\ validate_storage (s_rm s) ds = true.
Proof.
  unfold load. destruct (load_all e le ur ds s0) as [s1 ok].
  destruct ok; cbn [andb]; [|discriminate].
  destruct (validate_storage (s_rm s1) ds) eqn:V; intro H; inversion H; subst; auto.
Qed.

Lemma load_inv e le ur ds s0 s : nothing s0 -> load e le ur ds s0 = (s, true) ->
  Inv le ur s0 ds s.
Proof.
  intros N H. apply load_true in H. destruct H as [H _].
  apply (load_all_inv e le ur s0 ds [] s0 s); [now apply inv_start|exact H].
Qed.

Lemma rate_of_ok ur d : rate_ok ur d (rate_of ur d).
Proof.
  unfold rate_ok, rate_of.
  destruct (Nat.eqb_spec (d_rate d) 0); cbn [orb]; [split; [lia|reflexivity]|].
  destruct (Nat.ltb_spec ur (d_rate d)); [split; [lia|reflexivity]|]. split; [reflexivity|lia].
Qed.

Lemma aget_map_nodup {A} (f : hwdesc -> A) l d : NoDup (map d_name l) -> In d l ->
  aget (map (fun d => (d_name d, f d)) l) (d_name d) = Some (f d).
Proof.
  induction l as [|x l IH]; cbn [map aget]; intros ND Hin; [destruct Hin|].
  inversion ND as [|? ? H1 H2]; subst.
  destruct Hin as [->|Hin]; [now rewrite String.eqb_refl|].
  destruct (String.eqb_spec (d_name d) (d_name x)) as [E|]; [|auto].
  exfalso. apply H1. rewrite <- E. now apply in_map.
Qed.

Lemma loaded_wf le ur s0 P s : Inv le ur s0 P s -> wf_hw (comps s).
Proof.
  intro I. destruct (i_list _ _ _ _ _ I) as (L & J1 & J2 & J2' & J3 & J4 & J5 & J6).
  split.
  - apply (Permutation_NoDup (l := map h_name L)); [apply Permutation_map, Permutation_sym, J1|].
    rewrite J2. apply nd_NoDup, (i_nd _ _ _ _ _ I).
  - apply (Permutation_NoDup (l := flat_map h_cmd L));
      [apply Permutation_flat_map, Permutation_sym, J1|exact J5].
  - apply (Permutation_NoDup (l := flat_map h_state L));
      [apply Permutation_flat_map, Permutation_sym, J1|].
    rewrite J3. apply (i_nds _ _ _ _ _ I).
Qed.

Theorem load_components e le ur ds s0 s : nothing s0 -> load e le ur ds s0 = (s, true) ->
  (exists acts sens syss, rm_hw (rm_of s) = acts ++ sens ++ syss /\
     Forall2 (is_loaded Actuator) (filter (of_type "actuator") ds) acts /\
     Forall2 (is_loaded Sensor) (filter (of_type "sensor") ds) sens /\
     Forall2 (is_loaded System) (filter (of_type "system") ds) syss) /\
  (forall d, In d ds -> known d = true ->
     exists q, aget (s_info s) (d_name d) = Some q /\ rate_ok ur d q) /\
  wf_hw (rm_hw (rm_of s)) /\
  rm_trace (rm_of s) = inits ds ++ rm_trace (rm_of s0).
Proof.
  intros N H. pose proof (load_inv _ _ _ _ _ _ N H) as I.
  split; [|split; [|split]].
  - exists (s_act s), (s_sen s), (s_sys s). split; [reflexivity|]. exact (i_sorted _ _ _ _ _ I).
  - intros d Hd K. exists (rate_of ur d). split; [|apply rate_of_ok].
    rewrite (i_info _ _ _ _ _ I). apply aget_map_nodup.
    + apply nd_NoDup, (i_nd _ _ _ _ _ I).
    + apply filter_In. auto.
  - exact (loaded_wf _ _ _ _ _ I).
  - exact (i_trace _ _ _ _ _ I).
Qed.

Lemma in_out {A} (f : hwdesc -> list A) ds x : In x (flat_map f ds) -> exists d, In d ds /\ In x (f d).
Proof. intro H. apply in_flat_map in H. destruct H as (d & ? & ?). eauto. Qed.

Theorem load_interfaces e le ur ds s0 s : nothing s0 -> load e le ur ds s0 = (s, true) ->
  (forall k, describes_state ds k -> In k (rm_skeys (rm_of s))) /\
  (forall k, describes_cmd ds k -> In k (rm_ckeys (rm_of s))) /\
  (forall k, In k (rm_skeys (rm_of s)) <-> exists d, In d ds /\ In k (out_states le d)) /\
  (forall k, In k (rm_ckeys (rm_of s)) -> exists d, In d ds /\ In k (out_cmds le d)) /\
  NoDup (rm_skeys (rm_of s)) /\ NoDup (rm_ckeys (rm_of s)) /\
  rm_avs (rm_of s) = [] /\ rm_avc (rm_of s) = [] /\
  (forall k, aget (rm_claimed (rm_of s)) k =
     if mem k (rm_ckeys (rm_of s)) then Some false else None).
Proof.
  intros N H. pose proof (load_inv _ _ _ _ _ _ N H) as I.
  apply load_true in H. destruct H as [_ V]. apply validate_spec in V. destruct V as [V1 V2].
  split; [exact V1|]. split; [exact V2|]. split.
  { intro k. rewrite <- in_flat_map. apply (i_sk _ _ _ _ _ I). }
  split. { intros k Hk. apply in_flat_map. apply (i_ck _ _ _ _ _ I). exact Hk. }
  split; [exact (i_nds _ _ _ _ _ I)|]. split; [exact (i_ndc _ _ _ _ _ I)|].
  destruct (i_av _ _ _ _ _ I) as [A1 A2]. split; [exact A1|]. split; [exact A2|].
  intro k. change (aget (rm_claimed (s_rm s)) k = if mem k (rm_ckeys (s_rm s)) then Some false else None).
  rewrite (i_claimed _ _ _ _ _ I). generalize (rm_ckeys (s_rm s)) as l.
  induction l as [|x l IH]; [reflexivity|]. cbn [map aget mem existsb].
  destruct (String.eqb k x); [reflexivity|exact IH].
Qed.

Theorem load_failed e le ur ds s0 s : load e le ur ds s0 = (s, false) -> nothing s.
Proof.
  unfold load. destruct (load_all e le ur ds s0) as [s1 ok].
  destruct (ok && validate_storage (s_rm s1) ds); intro H; inversion H.
  split; cbn; auto.
Qed.

Theorem load_succeeds e le ur ds s0 : nothing s0 ->
  names_distinct ds ->
  (forall d k, In d ds -> kind_of (d_type d) = Some k -> le_create le k (d_plugin d) = true) ->
  (forall d t, In d ds -> known d = true -> e_hw e t (d_name d) HInit = CbSuccess) ->
  (forall k, describes_state ds k -> exists d, In d ds /\ In k (out_states le d)) ->
  (forall k, describes_cmd ds k -> exists d, In d ds /\ In k (out_cmds le d)) ->
  NoDup (flat_map (out_cmds le) ds) ->
  snd (load e le ur ds s0) = true.
Proof.
  intros N ND HC HI HS HM NDC.
  destruct (load_all_succeeds e le ur s0 ds [] s0 (inv_start le ur s0 N) ND HC HI) as [s' H].
  pose proof (load_all_inv e le ur s0 ds [] s0 s' (inv_start le ur s0 N) H) as I. cbn [app] in I.
  unfold load. rewrite H. cbn [andb].
  assert (V : validate_storage (s_rm s') ds = true).
  { apply validate_spec. split.
    - intros k Hk. apply (i_sk _ _ _ _ _ I), in_flat_map. auto.
    - intros k Hk. destruct (i_list _ _ _ _ _ I) as (L & _ & _ & _ & _ & _ & _ & J).
      destruct (J NDC) as [_ J']. rewrite J'. apply in_flat_map. auto. }
  rewrite V. reflexivity.
Qed.

(** Every component was created and initialized. *)
Lemma load_all_used e le ur s0 ds : forall P s s', Inv le ur s0 P s ->
  load_all e le ur ds s = (s', true) ->
  forall d k, In d ds -> kind_of (d_type d) = Some k ->
    le_create le k (d_plugin d) = true /\ exists t, e_hw e t (d_name d) HInit = CbSuccess.
Proof.
  induction ds as [|x ds IH]; cbn [load_all]; intros P s s' I H d k Hin Hk; [destruct Hin|].
  destruct (aget (s_info s) (d_name x)) eqn:Hn; [discriminate|].
  destruct (kind_of (d_type x)) as [kx|] eqn:Hx.
  - destruct (load_component e le ur kx x s) as [s1 ok] eqn:LC. destruct ok; [|discriminate].
    destruct Hin as [->|Hin].
    + rewrite Hk in Hx. inversion Hx; subst kx.
      destruct (load_component_ok e le ur k d s s1 LC (i_nds _ _ _ _ _ I) (i_ndc _ _ _ _ _ I)
        (i_claimed _ _ _ _ _ I)) as (C & R & _). eauto.
    + eapply IH; [eapply inv_step; eassumption|eassumption|eassumption|eassumption].
  - destruct Hin as [->|Hin]; [congruence|].
    eapply IH; [eapply inv_skip; eauto using unknown_kind|eassumption|eassumption|eassumption].
Qed.

Theorem load_refused e le ur ds s0 : nothing s0 ->
  (~ names_distinct ds \/
   (exists d k, In d ds /\ kind_of (d_type d) = Some k /\ le_create le k (d_plugin d) = false) \/
   (exists d, In d ds /\ known d = true /\ forall t, e_hw e t (d_name d) HInit <> CbSuccess) \/
   (exists k, describes_state ds k /\ forall d, In d ds -> ~ In k (out_states le d)) \/
   (exists k, describes_cmd ds k /\ forall d, In d ds -> ~ In k (out_cmds le d))) ->
  snd (load e le ur ds s0) = false.
Proof.
  intros N B. destruct (load e le ur ds s0) as [s ok] eqn:H. destruct ok; [|reflexivity]. exfalso.
  pose proof (load_inv _ _ _ _ _ _ N H) as I.
  pose proof (load_interfaces _ _ _ _ _ _ N H) as (F1 & F2 & F3 & F4 & _).
  apply load_true in H. destruct H as [H _].
  pose proof (load_all_used e le ur s0 ds [] s0 s (inv_start le ur s0 N) H) as U.
  destruct B as [B|[(d & k & Hd & Hk & B)|[(d & Hd & K & B)|[(k & Hk & B)|(k & Hk & B)]]]].
  - exact (B (i_nd _ _ _ _ _ I)).
  - destruct (U d k Hd Hk) as [C _]. congruence.
  - apply known_kind in K. destruct K as [k K]. destruct (U d k Hd K) as [_ [t T]]. exact (B t T).
  - destruct (proj1 (F3 k) (F1 k Hk)) as (d & Hd & X). exact (B d Hd X).
  - destruct (F4 k (F2 k Hk)) as (d & Hd & X). exact (B d Hd X).
Qed.

(** ---- the loaded manager is the start state of the resource manager's theorems *)

Lemma set_lc_id k d h : is_loaded k d h -> set_lc h Unconfigured = h.
Proof. intros (_ & _ & _ & L). destruct h; cbn in *; subst; reflexivity. Qed.

Lemma Forall2_right {A B} (R : A -> B -> Prop) (Q : B -> Prop) l l' :
  Forall2 R l l' -> (forall a b, R a b -> Q b) -> forall b, In b l' -> Q b.
Proof.
  induction 1; intros HQ z Hin; [destruct Hin|]. destruct Hin as [<-|Hin]; eauto.
Qed.

Lemma comps_unconf le ur s0 P s h : Inv le ur s0 P s -> In h (comps s) -> set_lc h Unconfigured = h.
Proof.
  intros I Hin. destruct (i_sorted _ _ _ _ _ I) as (A & B & C).
  unfold comps in Hin. apply in_app_iff in Hin. destruct Hin as [Hin|Hin].
  - refine (Forall2_right _ (fun h => set_lc h Unconfigured = h) _ _ A _ h Hin). intros a b; apply set_lc_id.
  - apply in_app_iff in Hin. destruct Hin as [Hin|Hin].
    + refine (Forall2_right _ (fun h => set_lc h Unconfigured = h) _ _ B _ h Hin). intros a b; apply set_lc_id.
    + refine (Forall2_right _ (fun h => set_lc h Unconfigured = h) _ _ C _ h Hin). intros a b; apply set_lc_id.
Qed.

Lemma aget_const {A B} (f : A -> name) (v : B) l k :
  aget (map (fun x => (f x, v)) l) k = if mem k (map f l) then Some v else None.
Proof.
  induction l as [|x l IH]; [reflexivity|]. cbn [map aget mem existsb].
  destruct (String.eqb k (f x)); [reflexivity|exact IH].
Qed.

Lemma mem_perm k l l' : Permutation l l' -> mem k l = mem k l'.
Proof.
  intro P. destruct (mem k l') eqn:M.
  - apply mem_In. apply mem_In in M. eapply Permutation_in; [apply Permutation_sym; exact P|exact M].
  - destruct (mem k l) eqn:M'; [|reflexivity]. apply mem_In in M'.
    apply (Permutation_in _ P) in M'. apply mem_In in M'. congruence.
Qed.

Theorem load_is_start e le ur ds s : load e le ur ds blank = (s, true) ->
  NoDup (flat_map (out_cmds le) ds) ->
  same_manager (rm_of s) (rm_start (rm_hw (rm_of s))).
Proof.
  intros H NDC. assert (N : nothing blank) by (split; cbn; auto).
  pose proof (load_inv _ _ _ _ _ _ N H) as I.
  destruct (i_list _ _ _ _ _ I) as (L & J1 & J2 & J2' & J3 & J4 & J5 & J6).
  destruct (J6 NDC) as [E1 E2].
  assert (PC : Permutation (rm_ckeys (s_rm s)) (flat_map h_cmd (comps s)))
    by (rewrite <- E1; apply Permutation_flat_map, Permutation_sym, J1).
  split; cbn [rm_hw rm_of with_hw rm_start rm_skeys rm_ckeys rm_claimed rm_avs rm_avc rm_refs rm_exps
              rm_groups rm_used].
  - symmetry. rewrite <- (map_id (comps s)) at 2. apply map_ext_in.
    intros h Hh. eapply comps_unconf; eassumption.
  - rewrite <- J3. apply Permutation_flat_map, Permutation_sym, J1.
  - exact PC.
  - intro k. rewrite (i_claimed _ _ _ _ _ I), !aget_const, !map_id. now rewrite (mem_perm k _ _ PC).
  - exact (i_av _ _ _ _ _ I).
  - exact (i_refs _ _ _ _ _ I).
  - intro g. rewrite (i_groups _ _ _ _ _ I). cbn [blank s_rm rm_groups aget]. rewrite aget_const, <- J2'.
    rewrite (mem_perm g _ _ (Permutation_map h_group J1)). reflexivity.
  - intro g. rewrite (i_used _ _ _ _ _ I). cbn [blank s_rm rm_used aget]. rewrite aget_const, <- J2.
    rewrite (mem_perm g _ _ (Permutation_map h_name J1)). reflexivity.
Qed.

(** ---- a second load over a loaded robot *)
Theorem load_again_wipes e le ur d ds s : aget (s_info s) (d_name d) <> None ->
  exists s', load e le ur (d :: ds) s = (s', false) /\ nothing s' /\
    rm_trace (rm_of s') = rm_trace (rm_of s).
Proof.
  intro H. unfold load. cbn [load_all]. destruct (aget (s_info s) (d_name d)); [|congruence].
  eexists. split; [reflexivity|]. split; [split; cbn; auto|reflexivity].
Qed.
