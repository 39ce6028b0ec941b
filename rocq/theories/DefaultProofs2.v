(** DefaultProofs2.v -- C79: what is exported; loading. *)
From Coq Require Import ZArith Permutation Lia.
From Verif Require Import LimitsModel HandleModel HandleSpec ParserModel XmlTypes XmlModel Base Events HwModel RmModel LoadModel LoadSpec LoadProofs LoadMain DefaultModel DefaultSpec DefaultProofs.
Open Scope string_scope. Open Scope nat_scope. Open Scope list_scope.

Lemma fold_insert (l m : list (string * itf_info)) : NoDup (map fst (m ++ l)) -> fold_left insert_new l m = m ++ l.
Proof.
  revert m. induction l as [|d l IH]; intros m N; cbn [fold_left]; [rewrite app_nil_r; reflexivity|].
  assert (E : insert_new m d = m ++ [d]).
  { unfold insert_new. destruct (aget m (fst d)) eqn:G; [|reflexivity]. exfalso. rewrite map_app in N. cbn [map] in N.
    apply NoDup_remove_2 in N. apply N. apply in_or_app. left. clear -G. induction m as [|[k v] m IH]; [discriminate|]. cbn in *.
    destruct (String.eqb_spec (fst d) k) as [->|]; [left; reflexivity|right; apply IH; exact G]. }
  rewrite E, IH; [rewrite <- app_assoc; reflexivity|]. rewrite <- app_assoc. exact N.
Qed.
Lemma described_all sel l : NoDup (map fst (descriptions sel l)) -> describe_into sel [] l = descriptions sel l.
Proof. intros N. unfold describe_into. apply fold_insert. exact N. Qed.
Lemma ord_perm u l l' : some_order u -> l = l' -> Permutation (u_ord u l) l'.
Proof. intros O <-. apply O. Qed.
Lemma nodup_app_l {A} (a b : list A) : NoDup (a ++ b) -> NoDup a.
Proof. intros N. induction a as [|x a IH]; [constructor|]. inversion N as [|? ? X Y]; subst. constructor; [intros I; apply X; apply in_or_app; left; exact I|apply IH; exact Y]. Qed.
Lemma nodup_app_r {A} (a b : list A) : NoDup (a ++ b) -> NoDup b.
Proof. induction a as [|x a IH]; intros N; [exact N|]. inversion N; subst. apply IH. assumption. Qed.
Lemma desc_app sel a b : descriptions sel (a ++ b) = descriptions sel a ++ descriptions sel b.
Proof. apply flat_map_app. Qed.
Lemma type_cases h : a_type h -> XmlTypes.h_type h = "actuator" \/ XmlTypes.h_type h = "sensor" \/ XmlTypes.h_type h = "system".
Proof. intros [E|[E|[E|[]]]]; rewrite <- E; auto. Qed.
Lemma states_perm u h : some_order u -> a_type h -> NoDup (map fst (offered_states u h)) -> Permutation (states_of u h) (offered_states u h).
Proof.
  intros O T N. unfold states_of, offered_states, on_init, parts_with_states in *. rewrite map_app in N. apply nodup_app_r in N.
  apply Permutation_app_head. change (flat_map (fun c => map (fun i => (full c i, i)) (ci_states c))) with (descriptions ci_states) in *.
  assert (Z : forall l, u_ord u [] ++ l = l) by (intros l; rewrite (Permutation_nil (Permutation_sym (O []))); reflexivity).
  destruct (type_cases h T) as [E|[E|E]]; rewrite E in *; cbn [String.eqb Ascii.eqb Bool.eqb] in *; cbn [j_states s_states g_states].
  - rewrite Z, (Permutation_nil (Permutation_sym (O []))), app_nil_r. apply ord_perm; [exact O|apply described_all; exact N].
  - rewrite desc_app in *. rewrite map_app in N. rewrite (Permutation_nil (Permutation_sym (O []))), app_nil_r.
    apply Permutation_app; apply ord_perm; try exact O; apply described_all; [apply nodup_app_l in N|apply nodup_app_r in N]; exact N.
  - rewrite !desc_app in *. rewrite !map_app in N. pose proof (nodup_app_l _ _ N) as N1. apply nodup_app_r in N. pose proof (nodup_app_l _ _ N) as N2. apply nodup_app_r in N.
    apply Permutation_app; [apply ord_perm; [exact O|apply described_all; exact N1]|].
    apply Permutation_app; apply ord_perm; try exact O; apply described_all; assumption.
Qed.
Lemma cmds_perm u h : some_order u -> a_type h -> XmlTypes.h_type h <> "sensor" -> NoDup (map fst (offered_cmds u h)) -> Permutation (cmds_of u h) (offered_cmds u h).
Proof.
  intros O T NS N. unfold cmds_of, offered_cmds, on_init, parts_with_cmds in *.
  assert (Z : forall l, u_ord u [] ++ l = l) by (intros l; rewrite (Permutation_nil (Permutation_sym (O []))); reflexivity).
  change (flat_map (fun c => map (fun i => (full c i, i)) (ci_cmds c))) with (descriptions ci_cmds) in *.
  destruct (type_cases h T) as [E|[E|E]]; [|congruence|]; rewrite E in *; cbn [String.eqb Ascii.eqb Bool.eqb] in *; cbn [j_cmds g_cmds];
    rewrite map_app in N; apply nodup_app_r in N; apply Permutation_app_head.
  - rewrite (Permutation_nil (Permutation_sym (O []))), app_nil_r. apply ord_perm; [exact O|apply described_all; exact N].
  - rewrite desc_app in *. rewrite map_app in N. pose proof (nodup_app_l _ _ N) as N1. apply nodup_app_r in N.
    apply Permutation_app; apply ord_perm; try exact O; apply described_all; assumption.
Qed.
Lemma export_some u l : (forall d, In d l -> exists v, starts_with u (snd d) v) -> export_names u l = Some (map fst l).
Proof.
  intros H. unfold export_names. replace (forallb _ l) with true; [reflexivity|]. symmetry. apply forallb_forall. intros d I.
  destruct (H d I) as (v & V). rewrite (initial_in _ _ _ V). reflexivity.
Qed.
Lemma nodup_flat {A B} (f : A -> list B) l x : NoDup (flat_map f l) -> In x l -> NoDup (f x).
Proof.
  induction l as [|y l IH]; intros N I; [destruct I|]. cbn in N. destruct I as [->|I]; [apply nodup_app_l in N; exact N|apply IH; [apply nodup_app_r in N; exact N|exact I]].
Qed.
Lemma find_name hs h : NoDup (map XmlTypes.h_name hs) -> In h hs -> find (fun x => String.eqb (XmlTypes.h_name x) (XmlTypes.h_name h)) hs = Some h.
Proof.
  induction hs as [|x hs IH]; intros N I; [destruct I|]. cbn. inversion N as [|? ? X Y]; subst. destruct I as [->|I].
  - rewrite String.eqb_refl. reflexivity.
  - destruct (String.eqb_spec (XmlTypes.h_name x) (XmlTypes.h_name h)) as [E|_]; [exfalso; apply X; rewrite E; apply in_map; exact I|apply IH; assumption].
Qed.
Theorem exported u hs h : some_order u -> sound_robot u hs -> In h hs ->
  (exists ks, le_states (exports_of u hs) (XmlTypes.h_name h) = Some ks /\ Permutation ks (map fst (offered_states u h))) /\
  (XmlTypes.h_type h <> "sensor" ->
   exists ks, le_cmds (exports_of u hs) (XmlTypes.h_name h) = Some ks /\ Permutation ks (map fst (offered_cmds u h))).
Proof.
  intros O SR I. pose proof (sr_types _ _ SR h I) as T. cbn [exports_of le_states le_cmds]. rewrite (find_name _ _ (sr_names _ _ SR) I).
  pose proof (nodup_flat (fun h => map fst (offered_states u h)) _ _ (sr_states _ _ SR) I) as NS. pose proof (nodup_flat (fun h => map fst (offered_cmds u h)) _ _ (sr_cmds _ _ SR) I) as NC. cbv beta in NS, NC. split.
  - pose proof (states_perm u h O T NS) as P. exists (map fst (states_of u h)). split; [|apply Permutation_map; exact P].
    apply export_some. intros d D. apply (sr_values _ _ SR h d I). left. eapply Permutation_in; [exact P|exact D].
  - intros S. pose proof (cmds_perm u h O T S NC) as P. exists (map fst (cmds_of u h)). split; [|apply Permutation_map; exact P].
    apply export_some. intros d D. apply (sr_values _ _ SR h d I). right. eapply Permutation_in; [exact P|exact D].
Qed.

(** ---- loading *)
Lemma known_desc h : a_type h -> known (desc_of h) = true.
Proof. intros T. unfold known, desc_of. cbn [d_type]. destruct (type_cases h T) as [-> | [-> | ->]]; reflexivity. Qed.
Lemma out_states_perm u hs h : some_order u -> sound_robot u hs -> In h hs ->
  Permutation (out_states (exports_of u hs) (desc_of h)) (map fst (offered_states u h)).
Proof.
  intros O SR I. unfold out_states. rewrite (known_desc _ (sr_types _ _ SR h I)). destruct (exported u hs h O SR I) as [(ks & E & P) _].
  change (d_name (desc_of h)) with (XmlTypes.h_name h). rewrite E. exact P.
Qed.
Lemma out_cmds_perm u hs h : some_order u -> sound_robot u hs -> In h hs ->
  Permutation (out_cmds (exports_of u hs) (desc_of h)) (map fst (offered_cmds u h)).
Proof.
  intros O SR I. unfold out_cmds. rewrite (known_desc _ (sr_types _ _ SR h I)). unfold of_type.
  change (d_type (desc_of h)) with (XmlTypes.h_type h). change (d_name (desc_of h)) with (XmlTypes.h_name h).
  destruct (String.eqb_spec (XmlTypes.h_type h) "sensor") as [E|E]; cbn [andb negb].
  - unfold offered_cmds, parts_with_cmds. rewrite E. cbn. constructor.
  - destruct (exported u hs h O SR I) as [_ X]. destruct (X E) as (ks & Y & P). rewrite Y. exact P.
Qed.
Lemma flat_perm {A B} (f g : A -> list B) l : (forall x, In x l -> Permutation (f x) (g x)) -> Permutation (flat_map f l) (flat_map g l).
Proof.
  induction l as [|x l IH]; intros H; [constructor|]. cbn. apply Permutation_app; [apply H; left; reflexivity|apply IH; intros y I; apply H; right; exact I].
Qed.
Lemma flat_map_map {A B C} (f : A -> B) (g : B -> list C) l : flat_map g (map f l) = flat_map (fun x => g (f x)) l.
Proof. induction l as [|x l IH]; [reflexivity|]. cbn. rewrite IH. reflexivity. Qed.
Lemma cmds_nodup u hs : some_order u -> sound_robot u hs -> NoDup (flat_map (out_cmds (exports_of u hs)) (map desc_of hs)).
Proof.
  intros O SR. rewrite flat_map_map. eapply Permutation_NoDup; [|exact (sr_cmds _ _ SR)]. apply Permutation_sym. apply flat_perm.
  intros h I. apply out_cmds_perm; assumption.
Qed.
Lemma distinct_desc hs : NoDup (map XmlTypes.h_name hs) -> names_distinct (map desc_of hs).
Proof.
  induction hs as [|h hs IH]; intros N; [constructor|]. inversion N as [|? ? X Y]; subst. cbn [map]. constructor; [|apply IH; exact Y].
  intros _ d D E. apply in_map_iff in D. destruct D as (h' & <- & D). apply X. change (XmlTypes.h_name h' = XmlTypes.h_name h) in E. rewrite <- E. apply in_map. exact D.
Qed.
Lemma in_offered_states u h c i : In c (parts_with_states h) -> In i (ci_states c) -> In (full c i) (map fst (offered_states u h)).
Proof.
  intros C I. unfold offered_states. rewrite map_app. apply in_or_app. right. apply in_map_iff. exists (full c i, i). split; [reflexivity|].
  apply in_flat_map. exists c. split; [exact C|]. apply in_map_iff. exists i. split; [reflexivity|exact I].
Qed.
Lemma in_offered_cmds u h c i : In c (parts_with_cmds h) -> In i (ci_cmds c) -> In (full c i) (map fst (offered_cmds u h)).
Proof.
  intros C I. unfold offered_cmds. rewrite map_app. apply in_or_app. right. apply in_map_iff. exists (full c i, i). split; [reflexivity|].
  apply in_flat_map. exists c. split; [exact C|]. apply in_map_iff. exists i. split; [reflexivity|exact I].
Qed.
Lemma described_part ps p : In p (map part_of ps) -> exists c, In c ps /\ p = part_of c.
Proof. intros I. apply in_map_iff in I. destruct I as (c & E & I). exists c. split; [exact I|symmetry; exact E]. Qed.
Lemma states_covered u hs k : (forall h, In h hs -> a_type h /\ nothing_ignored h) -> describes_state (map desc_of hs) k ->
  exists h, In h hs /\ In k (map fst (offered_states u h)).
Proof.
  intros H (d & p & i & D & P & I & ->). apply in_map_iff in D. destruct D as (h & <- & D). exists h. split; [exact D|].
  destruct (H h D) as [T [NA NS]]. cbn [desc_of d_joints d_sensors d_gpios] in P.
  assert (X : exists c, p = part_of c /\ (In c (h_joints h) \/ In c (h_sensors h) \/ In c (h_gpios h))).
  { destruct P as [P|[P|P]]; apply described_part in P; destruct P as (c & C & ->); exists c; auto. }
  destruct X as (c & -> & C). cbn [part_of p_states p_name] in *. apply in_map_iff in I. destruct I as (j & <- & I).
  change (In (full c j) (map fst (offered_states u h))). apply in_offered_states; [|exact I].
  unfold parts_with_states. destruct (type_cases h T) as [E|[E|E]]; rewrite E in *; cbn [String.eqb Ascii.eqb Bool.eqb] in *.
  - destruct (NA eq_refl) as [A1 A2]. destruct C as [C|[C|C]]; [exact C|rewrite (A1 c C) in I; destruct I|rewrite (proj1 (A2 c C)) in I; destruct I].
  - destruct (NS eq_refl) as [A1 A2]. destruct C as [C|[C|C]]; [apply in_or_app; left; exact C|apply in_or_app; right; exact C|rewrite (proj1 (A2 c C)) in I; destruct I].
  - rewrite !in_app_iff. tauto.
Qed.
Lemma cmds_covered u hs k : (forall h, In h hs -> a_type h /\ nothing_ignored h) -> describes_cmd (map desc_of hs) k ->
  exists h, In h hs /\ In k (map fst (offered_cmds u h)).
Proof.
  intros H (d & p & i & D & P & I & ->). apply in_map_iff in D. destruct D as (h & <- & D). exists h. split; [exact D|].
  destruct (H h D) as [T [NA NS]]. cbn [desc_of d_joints d_sensors d_gpios] in P.
  assert (X : exists c, p = part_of c /\ (In c (h_joints h) \/ In c (h_gpios h))).
  { destruct P as [P|P]; apply described_part in P; destruct P as (c & C & ->); exists c; auto. }
  destruct X as (c & -> & C). cbn [part_of p_cmds p_name] in *. apply in_map_iff in I. destruct I as (j & <- & I).
  change (In (full c j) (map fst (offered_cmds u h))). apply in_offered_cmds; [|exact I].
  unfold parts_with_cmds. destruct (type_cases h T) as [E|[E|E]]; rewrite E in *; cbn [String.eqb Ascii.eqb Bool.eqb] in *.
  - destruct (NA eq_refl) as [A1 A2]. destruct C as [C|C]; [exact C|rewrite (proj2 (A2 c C)) in I; destruct I].
  - destruct (NS eq_refl) as [A1 A2]. destruct C as [C|C]; [rewrite (A1 c C) in I; destruct I|rewrite (proj2 (A2 c C)) in I; destruct I].
  - rewrite in_app_iff. tauto.
Qed.
Theorem loads e u ur hs s0 : some_order u -> sound_robot u hs -> (forall h, In h hs -> nothing_ignored h) -> nothing s0 ->
  (forall h t, In h hs -> e_hw e t (XmlTypes.h_name h) HInit = CbSuccess) ->
  exists s, load e (exports_of u hs) ur (map desc_of hs) s0 = (s, true) /\
    (forall k, In k (rm_skeys (rm_of s)) <-> exists h, In h hs /\ In k (map fst (offered_states u h))) /\
    (forall k, In k (rm_ckeys (rm_of s)) <-> exists h, In h hs /\ In k (map fst (offered_cmds u h))).
Proof.
  intros O SR NI N IN.
  assert (TN : forall h, In h hs -> a_type h /\ nothing_ignored h) by (intros h I; split; [exact (sr_types _ _ SR h I)|apply NI; exact I]).
  assert (SS : forall k, (exists d, In d (map desc_of hs) /\ In k (out_states (exports_of u hs) d)) <-> exists h, In h hs /\ In k (map fst (offered_states u h))).
  { intros k. split.
    - intros (d & D & K). apply in_map_iff in D. destruct D as (h & <- & D). exists h. split; [exact D|]. eapply Permutation_in; [apply out_states_perm; eassumption|exact K].
    - intros (h & D & K). exists (desc_of h). split; [apply in_map; exact D|]. eapply Permutation_in; [apply Permutation_sym; apply out_states_perm; assumption|exact K]. }
  assert (CC : forall k, (exists d, In d (map desc_of hs) /\ In k (out_cmds (exports_of u hs) d)) <-> exists h, In h hs /\ In k (map fst (offered_cmds u h))).
  { intros k. split.
    - intros (d & D & K). apply in_map_iff in D. destruct D as (h & <- & D). exists h. split; [exact D|]. eapply Permutation_in; [apply out_cmds_perm; eassumption|exact K].
    - intros (h & D & K). exists (desc_of h). split; [apply in_map; exact D|]. eapply Permutation_in; [apply Permutation_sym; apply out_cmds_perm; assumption|exact K]. }
  pose proof (cmds_nodup u hs O SR) as ND.
  assert (L : snd (load e (exports_of u hs) ur (map desc_of hs) s0) = true).
  { apply load_succeeds; try assumption.
    - apply distinct_desc. exact (sr_names _ _ SR).
    - reflexivity.
    - intros d t D _. apply in_map_iff in D. destruct D as (h & <- & D). apply IN. exact D.
    - intros k K. apply SS. eapply states_covered; eassumption.
    - intros k K. apply CC. eapply cmds_covered; eassumption. }
  destruct (load e (exports_of u hs) ur (map desc_of hs) s0) as [s b] eqn:E. cbn in L. subst b. exists s. split; [reflexivity|].
  destruct (load_interfaces _ _ _ _ _ _ N E) as (_ & _ & A & B & _). split; [intros k; rewrite A; apply SS|].
  intros k. split; [intros K; apply CC; apply B; exact K|].
  intros K. apply CC in K. pose proof (load_inv _ _ _ _ _ _ N E) as IV. destruct (i_list _ _ _ _ _ IV) as (Lh & _ & _ & _ & _ & _ & _ & X).
  destruct (X ND) as [_ Y]. change (rm_ckeys (rm_of s)) with (rm_ckeys (s_rm s)). rewrite Y. apply in_flat_map. exact K.
Qed.
