(** LoadProofs.v -- the loading loop keeps an invariant over the described components handled so
    far. *)
From Coq Require Import Permutation Arith Lia.
From Verif Require Import Base Events HwModel RmModel RmSys LoadModel LoadSpec.
Open Scope string_scope. Open Scope nat_scope. Open Scope list_scope.

Section load.
Variables (e : env) (le : lenv) (ur : nat) (s0 : store).

Definition sorted (P : list hwdesc) (s : store) : Prop :=
  Forall2 (is_loaded Actuator) (filter (of_type "actuator") P) (s_act s) /\
  Forall2 (is_loaded Sensor) (filter (of_type "sensor") P) (s_sen s) /\
  Forall2 (is_loaded System) (filter (of_type "system") P) (s_sys s).

Record Inv (P : list hwdesc) (s : store) : Prop := {
  i_sorted : sorted P s;
  i_info : s_info s = map (fun d => (d_name d, rate_of ur d)) (filter known P);
  i_trace : rm_trace (s_rm s) = inits P ++ rm_trace (s_rm s0);
  i_nd : names_distinct P;
  i_list : exists L, Permutation (comps s) L /\
     map h_name L = map d_name (filter known P) /\
     map h_group L = map d_group (filter known P) /\
     flat_map h_state L = rm_skeys (s_rm s) /\
     incl (flat_map h_cmd L) (rm_ckeys (s_rm s)) /\ NoDup (flat_map h_cmd L) /\
     (NoDup (flat_map (out_cmds le) P) ->
        flat_map h_cmd L = rm_ckeys (s_rm s) /\ rm_ckeys (s_rm s) = flat_map (out_cmds le) P);
  i_nds : NoDup (rm_skeys (s_rm s));
  i_ndc : NoDup (rm_ckeys (s_rm s));
  i_sk : forall k, In k (rm_skeys (s_rm s)) <-> In k (flat_map (out_states le) P);
  i_ck : forall k, In k (rm_ckeys (s_rm s)) -> In k (flat_map (out_cmds le) P);
  i_claimed : rm_claimed (s_rm s) = map (fun k => (k, false)) (rm_ckeys (s_rm s));
  i_av : rm_avs (s_rm s) = [] /\ rm_avc (s_rm s) = [];
  i_refs : rm_refs (s_rm s) = rm_refs (s_rm s0) /\ rm_exps (s_rm s) = rm_exps (s_rm s0);
  i_groups : forall g, aget (rm_groups (s_rm s)) g =
     match aget (rm_groups (s_rm s0)) g with
     | Some v => Some v
     | None => if mem g (map d_group (filter known P)) then Some ROk else None
     end;
  i_used : forall n, aget (rm_used (s_rm s)) n =
     match aget (rm_used (s_rm s0)) n with
     | Some v => Some v
     | None => if mem n (map d_name (filter known P)) then Some [] else None
     end
}.

(* ---------------------------------------------------------------- small facts *)

Lemma kind_of_spec t k : kind_of t = Some k ->
  (k = Actuator /\ t = "actuator") \/ (k = Sensor /\ t = "sensor") \/ (k = System /\ t = "system").
Proof.
  unfold kind_of. destruct (String.eqb_spec t "actuator"); [intro H; inversion H; auto|].
  destruct (String.eqb_spec t "sensor"); [intro H; inversion H; auto|].
  destruct (String.eqb_spec t "system"); [intro H; inversion H; auto|discriminate].
Qed.

Lemma known_kind d : known d = true <-> exists k, kind_of (d_type d) = Some k.
Proof.
  unfold known, kind_of, mem, existsb.
  destruct (String.eqb (d_type d) "actuator"); [split; eauto|].
  destruct (String.eqb (d_type d) "sensor"); [split; eauto|].
  destruct (String.eqb (d_type d) "system"); cbn; [split; eauto|].
  split; [discriminate|intros [k Hk]; discriminate].
Qed.

Lemma unknown_kind d : kind_of (d_type d) = None -> known d = false.
Proof.
  intro H. destruct (known d) eqn:K; [|reflexivity].
  apply known_kind in K. destruct K as [k K]. congruence.
Qed.

Lemma unknown_of_type d t : known d = false -> In t ["actuator"; "sensor"; "system"] ->
  of_type t d = false.
Proof.
  intros K Ht. unfold of_type. destruct (String.eqb_spec (d_type d) t) as [E|]; [|reflexivity].
  exfalso. revert K. unfold known. rewrite E. destruct Ht as [<-|[<-|[<-|[]]]]; discriminate.
Qed.

Lemma nd_snoc P d : names_distinct P ->
  (forall d', In d' P -> known d' = true -> d_name d <> d_name d') ->
  names_distinct (P ++ [d]).
Proof.
  induction 1 as [|d0 P H0 HP IH]; cbn; intro Hd.
  - constructor; [intros _ d' []|constructor].
  - constructor; [|apply IH; auto].
    intros K d' Hin. apply in_app_iff in Hin. destruct Hin as [Hin|[<-|[]]]; auto.
Qed.

Lemma nd_mid P d Q : names_distinct (P ++ d :: Q) ->
  forall d', In d' P -> known d' = true -> d_name d <> d_name d'.
Proof.
  induction P as [|d0 P IH]; cbn; intros H d' Hin K; [destruct Hin|].
  inversion H as [|? ? H0 HP]; subst. destruct Hin as [<-|Hin]; [|eauto].
  apply H0; [assumption|]. apply in_app_iff. right. now left.
Qed.

Lemma nd_NoDup P : names_distinct P -> NoDup (map d_name (filter known P)).
Proof.
  induction 1 as [|d P H0 HP IH]; cbn [filter]; [constructor|].
  destruct (known d) eqn:K; [|exact IH]. cbn [map]. constructor; [|assumption].
  rewrite in_map_iff. intros (d' & E & Hin). apply filter_In in Hin.
  exact (H0 eq_refl d' (proj1 Hin) E).
Qed.

Lemma aget_In_fst {A} (m : alist A) k : aget m k = None -> ~ In k (map fst m).
Proof.
  induction m as [|[k' v] m IH]; cbn; [tauto|].
  destruct (String.eqb_spec k k') as [->|N]; [discriminate|].
  intros H [E|Hin]; [congruence|exact (IH H Hin)].
Qed.

Lemma aget_notin {A} (m : alist A) k : ~ In k (map fst m) -> aget m k = None.
Proof.
  induction m as [|[k' v] m IH]; cbn; [reflexivity|]. intro H.
  destruct (String.eqb_spec k k') as [->|N]; [exfalso; auto|]. apply IH. tauto.
Qed.

Lemma aget_app {A} (m1 m2 : alist A) k :
  aget (m1 ++ m2) k = match aget m1 k with Some v => Some v | None => aget m2 k end.
Proof.
  induction m1 as [|[k' v] m IH]; cbn; [reflexivity|].
  destruct (String.eqb k k'); [reflexivity|apply IH].
Qed.

Lemma aget_ainsert {A} (m : alist A) k v k' :
  aget (ainsert m k v) k' =
  match aget m k' with Some x => Some x | None => if String.eqb k' k then Some v else None end.
Proof.
  unfold ainsert. destruct (aget m k) eqn:E.
  - destruct (aget m k') eqn:E'; [reflexivity|].
    destruct (String.eqb_spec k' k) as [->|]; [congruence|reflexivity].
  - rewrite aget_app. reflexivity.
Qed.

Lemma mem_snoc g l x : mem g (l ++ [x]) = mem g l || String.eqb g x.
Proof. unfold mem. rewrite existsb_app. cbn. now rewrite orb_false_r. Qed.

(* ---------------------------------------------------------------- adding interfaces *)

Lemma add_state_spec ks : forall r r' added, add_state_itfs ks r = (r', added) ->
  NoDup (rm_skeys r) ->
  rm_skeys r' = rm_skeys r ++ added /\ NoDup (rm_skeys r') /\
  (forall k, In k (rm_skeys r') <-> In k (rm_skeys r) \/ In k ks) /\
  r' = with_skeys r (rm_skeys r').
Proof.
  induction ks as [|k ks IH]; cbn; intros r r' added H ND.
  - inversion H; subst. rewrite app_nil_r. repeat split; try tauto.
    destruct r'; reflexivity.
  - destruct (mem k (rm_skeys r)) eqn:M.
    + destruct (IH _ _ _ H ND) as (E & N & I & W). repeat split; auto.
      * intro Hk. apply I in Hk. tauto.
      * intros [Hk|[<-|Hk]]; apply I; auto. left. now apply mem_In.
    + destruct (add_state_itfs ks (with_skeys r (rm_skeys r ++ [k]))) as [r1 a1] eqn:A.
      inversion H; subst r1 added; clear H.
      assert (ND1 : NoDup (rm_skeys r ++ [k])).
      { rewrite Permutation_app_comm. cbn. constructor; [|assumption].
        intro Hk. apply mem_In in Hk. congruence. }
      destruct (IH _ _ _ A ND1) as (E & N & I & W). cbn [rm_skeys with_skeys] in *.
      repeat split.
      * rewrite E, <- app_assoc. reflexivity.
      * assumption.
      * intro Hk. apply I in Hk. destruct Hk as [Hk|Hk]; [|tauto].
        apply in_app_iff in Hk. destruct Hk as [Hk|[<-|[]]]; auto.
      * intro Hk. apply I. rewrite in_app_iff. cbn. tauto.
      * rewrite W at 1. destruct r; reflexivity.
Qed.

Lemma add_cmd_spec ks : forall r r' ok, add_cmd_itfs ks r = (r', ok) ->
  NoDup (rm_ckeys r) -> rm_claimed r = map (fun k => (k, false)) (rm_ckeys r) ->
  NoDup (rm_ckeys r') /\ rm_claimed r' = map (fun k => (k, false)) (rm_ckeys r') /\
  incl (rm_ckeys r) (rm_ckeys r') /\
  (forall k, In k (rm_ckeys r') -> In k (rm_ckeys r) \/ In k ks) /\
  (ok = true -> rm_ckeys r' = rm_ckeys r ++ ks /\ NoDup ks /\
                forall k, In k ks -> ~ In k (rm_ckeys r)) /\
  (NoDup ks -> (forall k, In k ks -> ~ In k (rm_ckeys r)) -> ok = true) /\
  r' = with_cmap r (rm_ckeys r') (rm_claimed r').
Proof.
  induction ks as [|k ks IH]; cbn; intros r r' ok H ND CL.
  - inversion H; subst. rewrite app_nil_r. repeat split; auto using incl_refl; try constructor.
    destruct r'; reflexivity.
  - destruct (mem k (rm_ckeys r)) eqn:M.
    + inversion H; subst. repeat split; auto using incl_refl; try discriminate.
      * intros _ Hk. exfalso. apply (Hk k (or_introl eq_refl)). now apply mem_In.
      * destruct r'; reflexivity.
    + assert (NI : ~ In k (rm_ckeys r)) by (intro Hk; apply mem_In in Hk; congruence).
      assert (G : aget (rm_claimed r) k = None).
      { apply aget_notin. rewrite CL, map_map. cbn. now rewrite map_id. }
      rewrite G in H.
      assert (S : aset (rm_claimed r) k false = map (fun k => (k, false)) (rm_ckeys r ++ [k])).
      { rewrite map_app. cbn. rewrite <- CL. clear - G. induction (rm_claimed r) as [|[k' v] m IH].
        - reflexivity.
        - cbn in *. destruct (String.eqb k k'); [discriminate|]. now rewrite IH. }
      assert (ND1 : NoDup (rm_ckeys r ++ [k])).
      { rewrite Permutation_app_comm. cbn. now constructor. }
      destruct (IH _ _ _ H ND1 S) as (N & C & I & O & T & F & W). cbn [rm_ckeys with_cmap] in *.
      repeat split; auto.
      * intros x Hx. apply I. apply in_app_iff. now left.
      * intros x Hx. apply O in Hx. destruct Hx as [Hx|Hx]; [|tauto].
        apply in_app_iff in Hx. destruct Hx as [Hx|[<-|[]]]; auto.
      * destruct (T H0) as (T1 & _ & _). rewrite T1, <- app_assoc. reflexivity.
      * destruct (T H0) as (_ & T2 & T3). constructor; [|assumption].
        intro Hk. apply (T3 k Hk). apply in_app_iff. right. now left.
      * destruct (T H0) as (_ & T2 & T3). intros x [<-|Hx]; [assumption|].
        intro Hc. apply (T3 x Hx). apply in_app_iff. now left.
      * intros ND' Hd. inversion ND' as [|? ? H1 H2]; subst. apply F; [assumption|].
        intros x Hx Hc. apply in_app_iff in Hc. destruct Hc as [Hc|[<-|[]]]; [|contradiction].
        exact (Hd x (or_intror Hx) Hc).
Qed.

Lemma import_states_spec r h r2 h2 : import_states le r h = (r2, h2) ->
  NoDup (rm_skeys r) -> h_state h = [] ->
  rm_skeys r2 = rm_skeys r ++ h_state h2 /\ NoDup (rm_skeys r2) /\
  (forall k, In k (rm_skeys r2) <-> In k (rm_skeys r) \/ In k (or_nil (le_states le (h_name h)))) /\
  r2 = with_skeys r (rm_skeys r2) /\ h2 = set_states h (h_state h2).
Proof.
  unfold import_states. intros H ND E. destruct (le_states le (h_name h)) as [ks|]; cbn [or_nil].
  - destruct (add_state_itfs ks r) as [r1 a] eqn:A. inversion H; subst; clear H.
    destruct (add_state_spec ks r r2 a A ND) as (X1 & X2 & X3 & X4).
    cbn [h_state set_states]. auto.
  - inversion H; subst. rewrite E, app_nil_r. repeat split; auto; try (cbn; tauto).
    + destruct r2; reflexivity.
    + destruct h2; cbn in *; subst; reflexivity.
Qed.

Lemma import_cmds_spec r h r2 h2 : import_cmds le r h = (r2, h2) ->
  NoDup (rm_ckeys r) -> rm_claimed r = map (fun k => (k, false)) (rm_ckeys r) -> h_cmd h = [] ->
  NoDup (rm_ckeys r2) /\ rm_claimed r2 = map (fun k => (k, false)) (rm_ckeys r2) /\
  incl (rm_ckeys r) (rm_ckeys r2) /\ incl (h_cmd h2) (rm_ckeys r2) /\ NoDup (h_cmd h2) /\
  (forall k, In k (h_cmd h2) -> ~ In k (rm_ckeys r)) /\
  (forall k, In k (rm_ckeys r2) -> In k (rm_ckeys r) \/ In k (or_nil (le_cmds le (h_name h)))) /\
  (NoDup (or_nil (le_cmds le (h_name h))) ->
   (forall k, In k (or_nil (le_cmds le (h_name h))) -> ~ In k (rm_ckeys r)) ->
   h_cmd h2 = or_nil (le_cmds le (h_name h)) /\ rm_ckeys r2 = rm_ckeys r ++ h_cmd h2) /\
  r2 = with_cmap r (rm_ckeys r2) (rm_claimed r2) /\ h2 = set_cmds h (h_cmd h2).
Proof.
  unfold import_cmds. intros H ND CL E. destruct (le_cmds le (h_name h)) as [ks|]; cbn [or_nil].
  - destruct (add_cmd_itfs ks r) as [r1 ok] eqn:A. inversion H; subst r1 h2; clear H.
    destruct (add_cmd_spec ks r r2 ok A ND CL) as (X1 & X2 & X3 & X4 & X5 & X6 & X7).
    destruct ok; cbn [h_cmd set_cmds].
    + destruct (X5 eq_refl) as (Y1 & Y2 & Y3).
      refine (conj X1 (conj X2 (conj X3 (conj _ (conj Y2 (conj Y3 (conj X4 (conj _ (conj X7 eq_refl))))))))).
      * intros k Hk. rewrite Y1. apply in_app_iff. now right.
      * intros _ _. auto.
    + rewrite E.
      refine (conj X1 (conj X2 (conj X3 (conj _ (conj _ (conj _ (conj X4 (conj _ (conj X7 _))))))))).
      * intros k [].
      * constructor.
      * intros k [].
      * intros N D. specialize (X6 N D). discriminate.
      * rewrite <- E. destruct h; reflexivity.
  - inversion H; subst. rewrite E.
    repeat split; auto using incl_refl; try constructor; try (intros k []).
    + rewrite app_nil_r. reflexivity.
    + destruct r2; reflexivity.
    + rewrite <- E. destruct h2; reflexivity.
Qed.

(* ---------------------------------------------------------------- one component *)

(** What a successful load of one component did. *)
Lemma load_component_ok k d s s' : load_component e le ur k d s = (s', true) ->
  NoDup (rm_skeys (s_rm s)) -> NoDup (rm_ckeys (s_rm s)) ->
  rm_claimed (s_rm s) = map (fun k => (k, false)) (rm_ckeys (s_rm s)) ->
  le_create le k (d_plugin d) = true /\
  e_hw e (rm_trace (s_rm s)) (d_name d) HInit = CbSuccess /\
  exists h r, s' = push (with_rm (enter_maps ur d s) r) k h /\
    is_loaded k d h /\ 
    rm_trace r = EvHwCb (d_name d) HInit CbSuccess :: rm_trace (s_rm s) /\
    rm_skeys r = rm_skeys (s_rm s) ++ h_state h /\ NoDup (rm_skeys r) /\
    (forall x, In x (rm_skeys r) <->
       In x (rm_skeys (s_rm s)) \/ In x (or_nil (le_states le (d_name d)))) /\
    NoDup (rm_ckeys r) /\ rm_claimed r = map (fun k => (k, false)) (rm_ckeys r) /\
    incl (rm_ckeys (s_rm s)) (rm_ckeys r) /\ incl (h_cmd h) (rm_ckeys r) /\ NoDup (h_cmd h) /\
    (forall x, In x (h_cmd h) -> ~ In x (rm_ckeys (s_rm s))) /\
    (let out := match k with Sensor => [] | _ => or_nil (le_cmds le (d_name d)) end in
     (forall x, In x (rm_ckeys r) -> In x (rm_ckeys (s_rm s)) \/ In x out) /\
     (NoDup out -> (forall x, In x out -> ~ In x (rm_ckeys (s_rm s))) ->
      h_cmd h = out /\ rm_ckeys r = rm_ckeys (s_rm s) ++ h_cmd h)) /\
    rm_avs r = rm_avs (s_rm s) /\ rm_avc r = rm_avc (s_rm s) /\
    rm_refs r = rm_refs (s_rm s) /\ rm_exps r = rm_exps (s_rm s) /\
    rm_groups r = ainsert (rm_groups (s_rm s)) (d_group d) ROk /\
    rm_used r = ainsert (rm_used (s_rm s)) (d_name d) [].
Proof.
  unfold load_component. intros H NS NC CL.
  destruct (le_create le k (d_plugin d)) eqn:C; [|discriminate]. cbn [negb] in H.
  unfold hw_init, call in H. cbn [h_lc fresh_hw h_name] in H.
  change (rm_trace (s_rm (enter_maps ur d s))) with (rm_trace (s_rm s)) in H.
  destruct (e_hw e (rm_trace (s_rm s)) (d_name d) HInit) eqn:R;
    cbn [h_lc set_lc orb negb lc_eqb] in H; try discriminate.
  split; [reflexivity|]. split; [reflexivity|].
  set (h1 := set_lc (fresh_hw ur k d) Unconfigured) in *.
  set (r1 := with_trace (s_rm (enter_maps ur d s))
               (EvHwCb (d_name d) HInit CbSuccess :: rm_trace (s_rm s))) in *.
  destruct (import_states le r1 h1) as [r2 h2] eqn:IS.
  destruct (import_states_spec r1 h1 r2 h2 IS NS eq_refl) as (S1 & S2 & S3 & S4 & S5).
  assert (C2 : rm_ckeys r2 = rm_ckeys (s_rm s) /\ rm_claimed r2 = rm_claimed (s_rm s) /\
               rm_trace r2 = EvHwCb (d_name d) HInit CbSuccess :: rm_trace (s_rm s) /\
               rm_avs r2 = rm_avs (s_rm s) /\ rm_avc r2 = rm_avc (s_rm s) /\
               rm_refs r2 = rm_refs (s_rm s) /\ rm_exps r2 = rm_exps (s_rm s) /\
               rm_groups r2 = ainsert (rm_groups (s_rm s)) (d_group d) ROk /\
               rm_used r2 = ainsert (rm_used (s_rm s)) (d_name d) [])
    by (rewrite S4; repeat split).
  destruct C2 as (K1 & K2 & K3 & K4 & K5 & K6 & K7 & K8 & K9).
  assert (L2 : is_loaded k d h2 /\ h_cmd h2 = [] /\ h_name h2 = d_name d)
    by (rewrite S5; repeat split).
  destruct L2 as (L2 & L3 & L4).
  assert (Q : exists r3 h3, s' = push (with_rm (enter_maps ur d s) r3) k h3 /\
    match k with Sensor => (r3, h3) = (r2, h2) | _ => import_cmds le r2 h2 = (r3, h3) end).
  { destruct k.
    - destruct (import_cmds le r2 h2) as [r3 h3]. inversion H. exists r3, h3. auto.
    - inversion H. exists r2, h2. auto.
    - destruct (import_cmds le r2 h2) as [r3 h3]. inversion H. exists r3, h3. auto. }
  destruct Q as (r3 & h3 & -> & Q). clear H.
  exists h3, r3. split; [reflexivity|].
  assert (CM : rm_skeys r3 = rm_skeys r2 /\ rm_trace r3 = rm_trace r2 /\
    rm_avs r3 = rm_avs r2 /\ rm_avc r3 = rm_avc r2 /\ rm_refs r3 = rm_refs r2 /\
    rm_exps r3 = rm_exps r2 /\ rm_groups r3 = rm_groups r2 /\ rm_used r3 = rm_used r2 /\
    h_state h3 = h_state h2 /\ is_loaded k d h3 /\
    NoDup (rm_ckeys r3) /\ rm_claimed r3 = map (fun k => (k, false)) (rm_ckeys r3) /\
    incl (rm_ckeys (s_rm s)) (rm_ckeys r3) /\ incl (h_cmd h3) (rm_ckeys r3) /\ NoDup (h_cmd h3) /\
    (forall x, In x (h_cmd h3) -> ~ In x (rm_ckeys (s_rm s))) /\
    (let out := match k with Sensor => [] | _ => or_nil (le_cmds le (d_name d)) end in
     (forall x, In x (rm_ckeys r3) -> In x (rm_ckeys (s_rm s)) \/ In x out) /\
     (NoDup out -> (forall x, In x out -> ~ In x (rm_ckeys (s_rm s))) ->
      h_cmd h3 = out /\ rm_ckeys r3 = rm_ckeys (s_rm s) ++ h_cmd h3))).
  { assert (GEN : import_cmds le r2 h2 = (r3, h3) ->
      rm_skeys r3 = rm_skeys r2 /\ rm_trace r3 = rm_trace r2 /\
      rm_avs r3 = rm_avs r2 /\ rm_avc r3 = rm_avc r2 /\ rm_refs r3 = rm_refs r2 /\
      rm_exps r3 = rm_exps r2 /\ rm_groups r3 = rm_groups r2 /\ rm_used r3 = rm_used r2 /\
      h_state h3 = h_state h2 /\ is_loaded k d h3 /\
      NoDup (rm_ckeys r3) /\ rm_claimed r3 = map (fun k => (k, false)) (rm_ckeys r3) /\
      incl (rm_ckeys (s_rm s)) (rm_ckeys r3) /\ incl (h_cmd h3) (rm_ckeys r3) /\ NoDup (h_cmd h3) /\
      (forall x, In x (h_cmd h3) -> ~ In x (rm_ckeys (s_rm s))) /\
      (let out := or_nil (le_cmds le (d_name d)) in
       (forall x, In x (rm_ckeys r3) -> In x (rm_ckeys (s_rm s)) \/ In x out) /\
       (NoDup out -> (forall x, In x out -> ~ In x (rm_ckeys (s_rm s))) ->
        h_cmd h3 = out /\ rm_ckeys r3 = rm_ckeys (s_rm s) ++ h_cmd h3))).
    { intro IC.
      destruct (import_cmds_spec r2 h2 r3 h3 IC) as (P1 & P2 & P3 & P4 & P5 & P6 & P7 & P8 & P9 & P10).
      { now rewrite K1. } { now rewrite K2, K1. } { exact L3. }
      rewrite K1 in *. rewrite L4 in *. rewrite P9.
      split; [reflexivity|]. split; [reflexivity|]. split; [reflexivity|].
      split; [reflexivity|]. split; [reflexivity|]. split; [reflexivity|].
      split; [reflexivity|]. split; [reflexivity|].
      split; [rewrite P10; reflexivity|].
      split; [rewrite P10; exact L2|].
      cbn [rm_ckeys with_cmap rm_claimed].
      refine (conj P1 (conj P2 (conj P3 (conj P4 (conj P5 (conj P6 (conj P7 P8))))))). }
    destruct k; [exact (GEN Q)| |exact (GEN Q)].
    inversion Q; subst r3 h3. rewrite K1, K2, L3.
    repeat split; auto using incl_refl; try (intros x []); try constructor; try apply L2; auto.
    rewrite app_nil_r. reflexivity. }
  destruct CM as (M1 & M2 & M3 & M4 & M5 & M6 & M7 & M8 & M9 & M10 & M11 & M12 & M13 & M14 & M15 & M16 & M17).
  rewrite M1, M2, M3, M4, M5, M6, M7, M8, M9.
  split; [exact M10|]. split; [exact K3|]. split; [exact S1|]. split; [exact S2|].
  split; [exact S3|]. split; [exact M11|]. split; [exact M12|]. split; [exact M13|].
  split; [exact M14|]. split; [exact M15|]. split; [exact M16|]. split; [exact M17|].
  auto 10.
Qed.

(* ---------------------------------------------------------------- the invariant *)

Lemma flat_map_snoc {A B} (f : A -> list B) l x : flat_map f (l ++ [x]) = flat_map f l ++ f x.
Proof. rewrite flat_map_app. cbn. now rewrite app_nil_r. Qed.

Lemma filter_snoc {A} (f : A -> bool) l x :
  filter f (l ++ [x]) = filter f l ++ (if f x then [x] else []).
Proof. rewrite filter_app. cbn. destruct (f x); reflexivity. Qed.

Lemma push_perm s k h : Permutation (comps (push s k h)) (comps s ++ [h]).
Proof.
  unfold comps, push. destruct k; cbn [s_act s_sen s_sys].
  - rewrite <- !app_assoc. apply Permutation_app_head. cbn. rewrite app_assoc.
    apply Permutation_cons_append.
  - rewrite <- !app_assoc. apply Permutation_app_head. apply Permutation_app_head.
    apply Permutation_cons_append.
  - rewrite !app_assoc. apply Permutation_refl.
Qed.

Lemma push_fields s k h : s_info (push s k h) = s_info s /\ s_rm (push s k h) = s_rm s.
Proof. destruct k; split; reflexivity. Qed.

Lemma inits_snoc P d : known d = true ->
  inits (P ++ [d]) = EvHwCb (d_name d) HInit CbSuccess :: inits P.
Proof.
  intro K. unfold inits. rewrite filter_snoc, K, map_app, rev_app_distr. reflexivity.
Qed.

Lemma nd_unseen P s d : Inv P s -> aget (s_info s) (d_name d) = None ->
  forall d', In d' P -> known d' = true -> d_name d <> d_name d'.
Proof.
  intros I H d' Hin K E. apply aget_In_fst in H. apply H.
  rewrite (i_info _ _ I), map_map. cbn. rewrite E.
  apply in_map_iff. exists d'. split; [reflexivity|]. apply filter_In. auto.
Qed.

Lemma inv_skip P s d : Inv P s -> aget (s_info s) (d_name d) = None -> known d = false ->
  Inv (P ++ [d]) s.
Proof.
  intros I H K.
  assert (F : filter known (P ++ [d]) = filter known P)
    by (rewrite filter_snoc, K; apply app_nil_r).
  assert (T : forall t, In t ["actuator"; "sensor"; "system"] ->
    filter (of_type t) (P ++ [d]) = filter (of_type t) P)
    by (intros t Ht; rewrite filter_snoc, (unknown_of_type d t K Ht); apply app_nil_r).
  assert (OS : flat_map (out_states le) (P ++ [d]) = flat_map (out_states le) P).
  { rewrite flat_map_snoc. unfold out_states at 2. rewrite K. apply app_nil_r. }
  assert (OC : flat_map (out_cmds le) (P ++ [d]) = flat_map (out_cmds le) P).
  { rewrite flat_map_snoc. unfold out_cmds at 2. rewrite K. apply app_nil_r. }
  destruct I as [I1 I2 I3 I4 I5 I6 I7 I8 I9 I10 I11 I12 I13 I14].
  split; rewrite ?F, ?OS, ?OC; auto.
  - unfold sorted. rewrite !T; [exact I1|cbn; auto..].
  - unfold inits. rewrite F. exact I3.
  - apply nd_snoc; [assumption|]. eapply nd_unseen; [|eassumption].
    split; eassumption.
Qed.

Lemma out_cmds_kind k d : kind_of (d_type d) = Some k ->
  out_cmds le d = match k with Sensor => [] | _ => or_nil (le_cmds le (d_name d)) end.
Proof.
  intro H. unfold out_cmds.
  assert (K : known d = true) by (apply known_kind; eauto). rewrite K.
  unfold of_type. destruct (kind_of_spec _ _ H) as [[-> ->]|[[-> ->]|[-> ->]]]; reflexivity.
Qed.

Lemma sorted_push P s k d h r : sorted P s -> kind_of (d_type d) = Some k -> is_loaded k d h ->
  sorted (P ++ [d]) (push (with_rm (enter_maps ur d s) r) k h).
Proof.
  intros (A & B & C) H L. unfold sorted. rewrite !filter_snoc. unfold of_type at 2 4 6.
  destruct (kind_of_spec _ _ H) as [[-> ->]|[[-> ->]|[-> ->]]];
    cbn [String.eqb Ascii.eqb Bool.eqb push s_act s_sen s_sys with_rm enter_maps];
    rewrite ?app_nil_r; repeat split; auto using Forall2_app.
Qed.

Lemma NoDup_app_r {A} (l1 l2 : list A) : NoDup (l1 ++ l2) ->
  NoDup l1 /\ NoDup l2 /\ forall x, In x l2 -> ~ In x l1.
Proof.
  induction l1 as [|a l IH]; cbn; intro H.
  - repeat split; auto; constructor.
  - inversion H as [|? ? H1 H2]; subst. destruct (IH H2) as (X & Y & Z).
    split; [constructor; auto; intro; apply H1, in_app_iff; auto|].
    split; [assumption|]. intros x Hx [->|Hin]; [apply H1, in_app_iff; auto|exact (Z x Hx Hin)].
Qed.

Lemma NoDup_app_intro {A} (l1 l2 : list A) : NoDup l1 -> NoDup l2 ->
  (forall x, In x l2 -> ~ In x l1) -> NoDup (l1 ++ l2).
Proof.
  induction 1 as [|a l Ha Hl IH]; cbn; intros H2 D; [assumption|].
  constructor.
  - rewrite in_app_iff. intros [Hin|Hin]; [contradiction|]. exact (D a Hin (or_introl eq_refl)).
  - apply IH; [assumption|]. intros x Hx Hin. exact (D x Hx (or_intror Hin)).
Qed.

Lemma inv_step P s k d s' : Inv P s -> aget (s_info s) (d_name d) = None ->
  kind_of (d_type d) = Some k -> load_component e le ur k d s = (s', true) ->
  Inv (P ++ [d]) s'.
Proof.
  intros I Hn Hk H.
  assert (K : known d = true) by (apply known_kind; eauto).
  pose proof (nd_unseen _ _ _ I Hn) as U.
  destruct I as [I1 I2 I3 I4 I5 I6 I7 I8 I9 I10 I11 I12 I13 I14].
  destruct (load_component_ok k d s s' H I6 I7 I10) as (C & R & h & r & -> & L & Q).
  destruct Q as (Q1 & Q2 & Q3 & Q4 & Q5 & Q6 & Q7 & Q8 & Q9 & Q10 & Q11 & Q12 & Q13 & Q14 & Q15 & Q16 & Q17).
  cbv zeta in Q11. rewrite <- (out_cmds_kind k d Hk) in Q11. destruct Q11 as (Q11 & Q11').
  assert (F : filter known (P ++ [d]) = filter known P ++ [d]) by (rewrite filter_snoc, K; reflexivity).
  assert (OSd : out_states le d = or_nil (le_states le (d_name d))) by (unfold out_states; now rewrite K).
  destruct (push_fields (with_rm (enter_maps ur d s) r) k h) as (PF1 & PF2).
  split.
  - apply sorted_push; assumption.
  - rewrite PF1, F, map_app, <- I2. cbn [s_info with_rm enter_maps map].
    unfold ainsert. now rewrite Hn.
  - rewrite PF2. cbn [s_rm with_rm]. rewrite (inits_snoc P d K), Q1, I3. reflexivity.
  - apply nd_snoc; assumption.
  - rewrite PF2. cbn [s_rm with_rm]. destruct I5 as (L0 & J1 & J2 & J2' & J3 & J4 & J5 & J6).
    exists (L0 ++ [h]). destruct L as (La & Lb & Lc & Ld).
    split. { eapply Permutation_trans; [apply push_perm|]. apply Permutation_app_tail. exact J1. }
    rewrite !map_app, F, !map_app, J2, J2'. cbn [map]. rewrite La, Lc.
    split; [reflexivity|]. split; [reflexivity|]. rewrite !flat_map_snoc.
    split; [now rewrite Q2, J3|].
    split. { intros x Hx. apply in_app_iff in Hx. destruct Hx as [Hx|Hx]; auto. }
    split. { apply NoDup_app_intro; auto. intros x Hx Hin. exact (Q10 x Hx (J4 x Hin)). }
    intro ND. destruct (NoDup_app_r _ _ ND) as (N1 & N2 & N3).
    destruct (J6 N1) as (E1 & E2). rewrite <- E2 in N3.
    destruct (Q11' N2 N3) as (E3 & E4). rewrite E4. split; [now rewrite E1|]. now rewrite E2, E3.
  - rewrite PF2. exact Q3.
  - rewrite PF2. exact Q5.
  - rewrite PF2. cbn [s_rm with_rm]. intro x. rewrite Q4, I8, flat_map_snoc, in_app_iff, OSd. tauto.
  - rewrite PF2. cbn [s_rm with_rm]. intros x Hx. rewrite flat_map_snoc, in_app_iff.
    destruct (Q11 x Hx); auto.
  - rewrite PF2. exact Q6.
  - rewrite PF2. cbn [s_rm with_rm]. rewrite Q12, Q13. exact I11.
  - rewrite PF2. cbn [s_rm with_rm]. rewrite Q14, Q15. exact I12.
  - rewrite PF2. cbn [s_rm with_rm]. intro g. rewrite Q16, aget_ainsert, I13, F, map_app. cbn [map]. rewrite mem_snoc.
    destruct (aget (rm_groups (s_rm s0)) g); [reflexivity|].
    destruct (mem g (map d_group (filter known P))); cbn [orb]; reflexivity.
  - rewrite PF2. cbn [s_rm with_rm]. intro g. rewrite Q17, aget_ainsert, I14, F, map_app. cbn [map]. rewrite mem_snoc.
    destruct (aget (rm_used (s_rm s0)) g); [reflexivity|].
    destruct (mem g (map d_name (filter known P))); cbn [orb]; reflexivity.
Qed.

Lemma load_all_inv ds : forall P s s', Inv P s -> load_all e le ur ds s = (s', true) ->
  Inv (P ++ ds) s'.
Proof.
  induction ds as [|d ds IH]; cbn [load_all]; intros P s s' I H.
  - inversion H; subst. now rewrite app_nil_r.
  - destruct (aget (s_info s) (d_name d)) eqn:Hn; [discriminate|].
    replace (P ++ d :: ds) with ((P ++ [d]) ++ ds) by (rewrite <- app_assoc; reflexivity).
    destruct (kind_of (d_type d)) as [k|] eqn:Hk.
    + destruct (load_component e le ur k d s) as [s1 ok] eqn:LC. destruct ok; [|discriminate].
      apply IH with s1; [|exact H]. eapply inv_step; eassumption.
    + apply IH with s; [|exact H]. apply inv_skip; auto. now apply unknown_kind.
Qed.

Lemma inv_start : nothing s0 -> Inv [] s0.
Proof.
  intros [N1 N2 N3 N4 [N5 N6] N7]. cbn in N1, N2, N3, N4, N5, N6.
  assert (A : s_act s0 = [] /\ s_sen s0 = [] /\ s_sys s0 = []).
  { unfold comps in N1. destruct (s_act s0), (s_sen s0), (s_sys s0); try discriminate; auto. }
  destruct A as (A1 & A2 & A3).
  split; cbn; rewrite ?N2, ?N3, ?N4, ?N5, ?N6, ?N7; try constructor; auto.
  - rewrite A1. constructor.
  - rewrite A2, A3. repeat constructor.
  - exists []. rewrite N1. repeat split; auto; try constructor. intros x [].
  - intro g. destruct (aget (rm_groups (s_rm s0)) g); reflexivity.
  - intro g. destruct (aget (rm_used (s_rm s0)) g); reflexivity.
Qed.

(** Each component creates and initializes: the loop succeeds. *)
Lemma load_all_succeeds ds : forall P s, Inv P s -> names_distinct (P ++ ds) ->
  (forall d k, In d ds -> kind_of (d_type d) = Some k -> le_create le k (d_plugin d) = true) ->
  (forall d t, In d ds -> known d = true -> e_hw e t (d_name d) HInit = CbSuccess) ->
  exists s', load_all e le ur ds s = (s', true).
Proof.
  induction ds as [|d ds IH]; cbn [load_all]; intros P s I ND HC HI; [eauto|].
  assert (U := nd_mid _ _ _ ND).
  assert (G : aget (s_info s) (d_name d) = None).
  { apply aget_notin. rewrite (i_info _ _ I), map_map. cbn [fst]. rewrite in_map_iff.
    intros (d' & E & Hin). apply filter_In in Hin. exact (U d' (proj1 Hin) (proj2 Hin) (eq_sym E)). }
  rewrite G.
  replace (P ++ d :: ds) with ((P ++ [d]) ++ ds) in ND by (rewrite <- app_assoc; reflexivity).
  destruct (kind_of (d_type d)) as [k|] eqn:Hk.
  - destruct (load_component e le ur k d s) as [s1 ok] eqn:LC.
    assert (ok = true).
    { revert LC. unfold load_component. rewrite (HC d k (or_introl eq_refl) Hk). cbn [negb].
      unfold hw_init, call. cbn [h_lc fresh_hw h_name].
      assert (K : known d = true) by (apply known_kind; eauto).
      rewrite (HI d _ (or_introl eq_refl) K). cbn [h_lc set_lc orb negb lc_eqb].
      destruct (import_states le _ _) as [r2 h2]. destruct k.
      - destruct (import_cmds le r2 h2) as [r3 h3]. intro X; inversion X; reflexivity.
      - intro X; inversion X; reflexivity.
      - destruct (import_cmds le r2 h2) as [r3 h3]. intro X; inversion X; reflexivity. }
    subst ok. apply IH with (P ++ [d]).
    + eapply inv_step; eassumption.
    + assumption.
    + intros d' k' Hin. apply HC. now right.
    + intros d' t Hin. apply HI. now right.
  - apply IH with (P ++ [d]).
    + apply inv_skip; auto. now apply unknown_kind.
    + assumption.
    + intros d' k' Hin. apply HC. now right.
    + intros d' t Hin. apply HI. now right.
Qed.

(* ---------------------------------------------------------------- validation *)

Lemma validate_spec r ds : validate_storage r ds = true <->
  (forall k, describes_state ds k -> In k (rm_skeys r)) /\
  (forall k, describes_cmd ds k -> In k (rm_ckeys r)).
Proof.
  assert (PS : forall p, part_states_ok r p = true <->
    forall i, In i (p_states p) -> In (p_name p ++ "/" ++ i)%string (rm_skeys r)).
  { intro p. unfold part_states_ok. rewrite forallb_forall.
    split; intros H i Hi; apply mem_In; auto. }
  assert (PC : forall p, part_cmds_ok r p = true <->
    forall i, In i (p_cmds p) -> In (p_name p ++ "/" ++ i)%string (rm_ckeys r)).
  { intro p. unfold part_cmds_ok. rewrite forallb_forall.
    split; intros H i Hi; apply mem_In; auto. }
  unfold validate_storage. rewrite forallb_forall. split.
  - intro H. split.
    + intros k (d & p & i & Hd & Hp & Hi & ->). specialize (H d Hd).
      apply andb_true_iff in H. destruct H as [H H3]. apply andb_true_iff in H. destruct H as [H1 H2].
      rewrite forallb_forall in H1, H2, H3. destruct Hp as [Hp|[Hp|Hp]].
      * specialize (H1 p Hp). apply andb_true_iff in H1. now apply PS.
      * now apply PS; [apply H2|].
      * specialize (H3 p Hp). apply andb_true_iff in H3. now apply PS.
    + intros k (d & p & i & Hd & Hp & Hi & ->). specialize (H d Hd).
      apply andb_true_iff in H. destruct H as [H H3]. apply andb_true_iff in H. destruct H as [H1 H2].
      rewrite forallb_forall in H1, H3. destruct Hp as [Hp|Hp].
      * specialize (H1 p Hp). apply andb_true_iff in H1. now apply PC.
      * specialize (H3 p Hp). apply andb_true_iff in H3. now apply PC.
  - intros [HS HC] d Hd. apply andb_true_iff. split; [apply andb_true_iff; split|];
      apply forallb_forall; intros p Hp.
    + apply andb_true_iff. split; [apply PS|apply PC]; intros i Hi.
      * apply HS. exists d, p, i. auto 10.
      * apply HC. exists d, p, i. auto 10.
    + apply PS. intros i Hi. apply HS. exists d, p, i. auto 10.
    + apply andb_true_iff. split; [apply PS|apply PC]; intros i Hi.
      * apply HS. exists d, p, i. auto 10.
      * apply HC. exists d, p, i. auto 10.
Qed.

End load.
