(** DefaultProofs6.v -- C79: a described initial value that cannot be read stops the loading. *)
From Coq Require Import Ascii ZArith Permutation Lia.
From Verif Require Import LimitsModel HandleModel HandleSpec ParserModel XmlTypes XmlModel Base Events HwModel RmModel LoadModel LoadSpec LoadProofs LoadMain DefaultModel DefaultSpec DefaultProofs DefaultProofs2 DefaultProofs3 DefaultProofs4 DefaultProofs5.
Open Scope string_scope. Open Scope nat_scope. Open Scope list_scope.

Lemma no_value u i : unreadable u i -> initial u i = None.
Proof. intros [N U]. destruct (initial u i) as [v|] eqn:E; [|reflexivity]. exfalso. exact (N v (initial_out u i v U E)). Qed.
Lemma export_none u l d : In d l -> initial u (snd d) = None -> export_names u l = None.
Proof.
  intros I N. unfold export_names. destruct (forallb _ l) eqn:F; [|reflexivity]. exfalso. rewrite forallb_forall in F. specialize (F d I). cbv beta in F. rewrite N in F. discriminate.
Qed.
Lemma export_sub u l ks k : export_names u l = Some ks -> In k ks -> In k (map fst l).
Proof. unfold export_names. destruct (forallb _ l); [|discriminate]. intros E I. injection E as <-. exact I. Qed.
Theorem bad_state u hs h c i e ur s0 : some_order u -> named_robot u hs -> In h hs -> In c (parts_with_states h) -> In i (ci_states c) -> unreadable u i -> nothing s0 ->
  snd (load e (exports_of u hs) ur (map desc_of hs) s0) = false.
Proof.
  intros O R I C S U N. pose proof (nr_types _ _ R h I) as T. apply load_refused; [exact N|]. right. right. right. left. exists (full c i). split.
  - exists (desc_of h), (part_of c), (ii_name i). split; [apply in_map; exact I|]. split; [|split; [apply in_map; exact S|reflexivity]].
    unfold parts_with_states in C. cbn [desc_of d_joints d_sensors d_gpios].
    destruct (String.eqb _ "actuator"); [left; apply in_map; exact C|]. destruct (String.eqb _ "sensor"); rewrite ?in_app_iff in C.
    + destruct C as [C|C]; [left|right; left]; apply in_map; exact C.
    + destruct C as [C|[C|C]]; [left|right; left|right; right]; apply in_map; exact C.
  - intros d D K. apply in_map_iff in D. destruct D as (h' & <- & D). unfold out_states in K. destruct (known _); [|exact K].
    change (d_name (desc_of h')) with (XmlTypes.h_name h') in K. cbn [exports_of le_states] in K. rewrite (find_name _ _ (nr_names _ _ R) D) in K.
    destruct (export_names u (states_of u h')) as [ks|] eqn:E; [|exact K]. cbn [or_nil] in K. pose proof (export_sub _ _ _ _ E K) as K'.
    assert (ND : forall x, In x hs -> Permutation (states_of u x) (offered_states u x)).
    { intros x X. apply states_perm; [exact O|exact (nr_types _ _ R x X)|exact (nodup_flat _ _ _ (nr_states _ _ R) X)]. }
    pose proof (Permutation_in _ (Permutation_map fst (ND h' D)) K') as K2.
    assert (h' = h) as -> by (exact (same_block (fun h => map fst (offered_states u h)) hs h' h (full c i) (nr_states _ _ R) D I K2 (in_offered_states u h c i C S))).
    assert (X : In (full c i, i) (states_of u h)).
    { apply (Permutation_in _ (Permutation_sym (ND h I))). unfold offered_states. apply in_or_app. right. apply in_flat_map. exists c. split; [exact C|]. apply in_map_iff. exists i. split; [reflexivity|exact S]. }
    rewrite (export_none u _ _ X (no_value u i U)) in E. discriminate.
Qed.
Theorem bad_cmd u hs h c i e ur s0 : some_order u -> named_robot u hs -> In h hs -> In c (parts_with_cmds h) -> In i (ci_cmds c) -> unreadable u i -> nothing s0 ->
  snd (load e (exports_of u hs) ur (map desc_of hs) s0) = false.
Proof.
  intros O R I C S U N. pose proof (nr_types _ _ R h I) as T. apply load_refused; [exact N|]. right. right. right. right. exists (full c i). split.
  - exists (desc_of h), (part_of c), (ii_name i). split; [apply in_map; exact I|]. split; [|split; [apply in_map; exact S|reflexivity]].
    unfold parts_with_cmds in C. cbn [desc_of d_joints d_sensors d_gpios].
    destruct (String.eqb _ "actuator"); [left; apply in_map; exact C|]. destruct (String.eqb _ "sensor"); rewrite ?in_app_iff in C; [destruct C|].
    destruct C as [C|C]; [left|right]; apply in_map; exact C.
  - intros d D K. apply in_map_iff in D. destruct D as (h' & <- & D). unfold out_cmds in K. destruct (known _ && negb _)%bool eqn:KN; [|exact K].
    change (d_name (desc_of h')) with (XmlTypes.h_name h') in K. cbn [exports_of le_cmds] in K. rewrite (find_name _ _ (nr_names _ _ R) D) in K.
    destruct (export_names u (cmds_of u h')) as [ks|] eqn:E; [|exact K]. cbn [or_nil] in K. pose proof (export_sub _ _ _ _ E K) as K'.
    assert (NS : XmlTypes.h_type h' <> "sensor").
    { intros Z. apply andb_true_iff in KN. destruct KN as [_ KN]. unfold of_type in KN. change (d_type (desc_of h')) with (XmlTypes.h_type h') in KN. rewrite Z in KN. discriminate. }
    assert (ND : forall x, In x hs -> XmlTypes.h_type x <> "sensor" -> Permutation (cmds_of u x) (offered_cmds u x)).
    { intros x X Y. apply cmds_perm; [exact O|exact (nr_types _ _ R x X)|exact Y|exact (nodup_flat _ _ _ (nr_cmds _ _ R) X)]. }
    pose proof (Permutation_in _ (Permutation_map fst (ND h' D NS)) K') as K2.
    assert (h' = h) as -> by (exact (same_block (fun h => map fst (offered_cmds u h)) hs h' h (full c i) (nr_cmds _ _ R) D I K2 (in_offered_cmds u h c i C S))).
    assert (X : In (full c i, i) (cmds_of u h)).
    { apply (Permutation_in _ (Permutation_sym (ND h I NS))). unfold offered_cmds. apply in_or_app. right. apply in_flat_map. exists c. split; [exact C|]. apply in_map_iff. exists i. split; [reflexivity|exact S]. }
    rewrite (export_none u _ _ X (no_value u i U)) in E. discriminate.
Qed.
(** what the base class ignores cannot be loaded *)
Lemma out_sub_s u hs h k : some_order u -> named_robot u hs -> In h hs -> In k (out_states (exports_of u hs) (desc_of h)) -> In k (map fst (offered_states u h)).
Proof.
  intros O R D K. unfold out_states in K. destruct (known _); [|destruct K].
  change (d_name (desc_of h)) with (XmlTypes.h_name h) in K. cbn [exports_of le_states] in K. rewrite (find_name _ _ (nr_names _ _ R) D) in K.
  destruct (export_names u (states_of u h)) as [ks|] eqn:E; [|destruct K].
  apply (Permutation_in _ (Permutation_map fst (states_perm u h O (nr_types _ _ R h D) (nodup_flat _ _ _ (nr_states _ _ R) D)))). exact (export_sub _ _ _ _ E K).
Qed.
Lemma out_sub_c u hs h k : some_order u -> named_robot u hs -> In h hs -> In k (out_cmds (exports_of u hs) (desc_of h)) -> In k (map fst (offered_cmds u h)).
Proof.
  intros O R D K. unfold out_cmds in K. destruct (known _ && negb _)%bool eqn:KN; [|destruct K].
  change (d_name (desc_of h)) with (XmlTypes.h_name h) in K. cbn [exports_of le_cmds] in K. rewrite (find_name _ _ (nr_names _ _ R) D) in K.
  destruct (export_names u (cmds_of u h)) as [ks|] eqn:E; [|destruct K].
  assert (NS : XmlTypes.h_type h <> "sensor").
  { intros Z. apply andb_true_iff in KN. destruct KN as [_ KN]. unfold of_type in KN. change (d_type (desc_of h)) with (XmlTypes.h_type h) in KN. rewrite Z in KN. discriminate. }
  apply (Permutation_in _ (Permutation_map fst (cmds_perm u h O (nr_types _ _ R h D) NS (nodup_flat _ _ _ (nr_cmds _ _ R) D)))). exact (export_sub _ _ _ _ E K).
Qed.
Theorem ignored u hs k e ur s0 : some_order u -> named_robot u hs -> nothing s0 ->
  (describes_state (map desc_of hs) k /\ (forall h, In h hs -> ~ In k (map fst (offered_states u h)))) \/
  (describes_cmd (map desc_of hs) k /\ (forall h, In h hs -> ~ In k (map fst (offered_cmds u h)))) ->
  snd (load e (exports_of u hs) ur (map desc_of hs) s0) = false.
Proof.
  intros O R N H. apply load_refused; [exact N|]. right. right. right. destruct H as [[D H]|[D H]]; [left|right]; exists k; (split; [exact D|]); intros d I K;
    apply in_map_iff in I; destruct I as (h & <- & I); apply (H h I).
  - exact (out_sub_s u hs h k O R I K).
  - exact (out_sub_c u hs h k O R I K).
Qed.
