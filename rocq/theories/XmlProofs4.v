(** XmlProofs4.v *)
From Coq Require Import List Bool String Ascii ZArith SpecFloat Lia.
From Verif Require Import Base LexModel LexSpec LexProofs ArrayModel ArraySpec ArrayProofs LimitsModel ParserModel XmlTypes XmlModel XmlSpec XmlProofs XmlProofs2 XmlProofs3.
Import ListNotations.
Open Scope string_scope.
Open Scope Z_scope.
Open Scope list_scope.

Section P.
Variable stod : string -> option F.
Variable to_int : F -> Z.
Definition sel (t : string) (l : list xml) : list xml := filter (fun y => String.eqb (tag y) t) l.
Lemma sel_same t x l : tag x = t -> sel t (x :: l) = x :: sel t l.
Proof. intro E. unfold sel. cbn. rewrite E, String.eqb_refl. reflexivity. Qed.
Lemma sel_other t x l : tag x <> t -> sel t (x :: l) = sel t l.
Proof. intro E. unfold sel. cbn. apply String.eqb_neq in E. rewrite E. reflexivity. Qed.
Record ch (h0 : hw_info) (l : list xml) (h : hw_info) : Prop := {
  c_name : h_name h = h_name h0; c_type : h_type h = h_type h0; c_rate : h_rate h = h_rate h0; c_async : h_async h = h_async h0;
  c_known : Forall (fun c => In (tag c) known_tags) l;
  c_plugin : latest plugin_of (h_plugin h0) (sel "hardware" l) (h_plugin h);
  c_group : latest group_of (h_group h0) (sel "hardware" l) (h_group h);
  c_params : latest params_of (h_params h0) (sel "hardware" l) (h_params h);
  c_prio : latest (async_of "thread_priority" is_positive) (h_prio h0) (sel "properties" l) (h_prio h);
  c_policy : latest (async_of "scheduling_policy" in_lower_case) (h_policy h0) (sel "properties" l) (h_policy h);
  c_cores : latest (async_of "affinity" (is_int_array stod to_int)) (h_cores h0) (sel "properties" l) (h_cores h);
  c_warn : latest (async_of "print_warnings" is_bool) (h_warn h0) (sel "properties" l) (h_warn h);
  c_joints : grows comp_says (sel "joint" l) (h_joints h0) (h_joints h);
  c_sensors : grows comp_says (sel "sensor" l) (h_sensors h0) (h_sensors h);
  c_gpios : grows gpio_says (sel "gpio" l) (h_gpios h0) (h_gpios h);
  c_trans : grows (fun x t => parse_trans stod x = Some t) (sel "transmission" l) (h_trans h0) (h_trans h) }.
Lemma ch_nil h0 h : ch h0 [] h <-> h0 = h.
Proof.
  split.
  - intros [A1 A2 A3 A4 _ A5 A6 A7 A8 A9 A10 A11 A12 A13 A14 A15]. cbn [sel filter] in *. apply latest_nil in A5, A6, A7, A8, A9, A10, A11. apply grows_nil in A12, A13, A14, A15. destruct h, h0; cbn in *. subst. reflexivity.
  - intros <-. constructor; try reflexivity; try constructor; cbn [sel filter]; try (apply latest_nil; reflexivity); try (apply grows_nil; reflexivity); try (constructor; fail); try (left; split; [reflexivity|constructor]).
Qed.
Definition pol_g := async_g "scheduling_policy" (fun s => Some (lower s)).
Definition cor_g := async_g "affinity" (int_array stod to_int).
Definition pri_g := async_g "thread_priority" positive.
Definition war_g := async_g "print_warnings" pbool.
Lemma plugin_step d x l v : latest plugin_of d (x :: l) v <-> exists d', plugin_g d x = Some d' /\ latest plugin_of d' l v. Proof. apply latest_step. apply plugin_g_iff. Qed.
Lemma group_step d x l v : latest group_of d (x :: l) v <-> exists d', group_g d x = Some d' /\ latest group_of d' l v. Proof. apply latest_step. apply group_g_iff. Qed.
Lemma params_step d x l v : latest params_of d (x :: l) v <-> exists d', params_g d x = Some d' /\ latest params_of d' l v. Proof. apply latest_step. apply params_g_iff. Qed.
Lemma pri_step d x l v : latest (async_of "thread_priority" is_positive) d (x :: l) v <-> exists d', pri_g d x = Some d' /\ latest (async_of "thread_priority" is_positive) d' l v.
Proof. apply latest_step. apply async_g_iff. intros. apply positive_iff. Qed.
Lemma pol_step d x l v : latest (async_of "scheduling_policy" in_lower_case) d (x :: l) v <-> exists d', pol_g d x = Some d' /\ latest (async_of "scheduling_policy" in_lower_case) d' l v.
Proof. apply latest_step. apply async_g_iff. intros w u. rewrite <- lower_iff. split; congruence. Qed.
Lemma cor_step d x l v : latest (async_of "affinity" (is_int_array stod to_int)) d (x :: l) v <-> exists d', cor_g d x = Some d' /\ latest (async_of "affinity" (is_int_array stod to_int)) d' l v.
Proof. apply latest_step. apply async_g_iff. intros. apply int_array_iff. Qed.
Lemma war_step d x l v : latest (async_of "print_warnings" is_bool) d (x :: l) v <-> exists d', war_g d x = Some d' /\ latest (async_of "print_warnings" is_bool) d' l v.
Proof. apply latest_step. apply async_g_iff. intros. apply pbool_iff. Qed.

Definition upd_hw h group plugin ps := {| h_name := h_name h; h_type := h_type h; h_group := group; h_rate := h_rate h; h_async := h_async h;
            h_prio := h_prio h; h_policy := h_policy h; h_cores := h_cores h; h_warn := h_warn h; h_plugin := plugin; h_params := ps;
            h_joints := h_joints h; h_sensors := h_sensors h; h_gpios := h_gpios h; h_trans := h_trans h |}.
Definition upd_as h prio policy cores warn := {| h_name := h_name h; h_type := h_type h; h_group := h_group h; h_rate := h_rate h; h_async := h_async h;
              h_prio := prio; h_policy := policy; h_cores := cores; h_warn := warn; h_plugin := h_plugin h; h_params := h_params h;
              h_joints := h_joints h; h_sensors := h_sensors h; h_gpios := h_gpios h; h_trans := h_trans h |}.
Lemma child_hw h x h' : tag x = "hardware" -> parse_child stod to_int h x = Some h' <->
  exists p g ps, plugin_g (h_plugin h) x = Some p /\ group_g (h_group h) x = Some g /\ params_g (h_params h) x = Some ps /\ h' = upd_hw h g p ps.
Proof.
  intro E. unfold parse_child. rewrite E. cbn [String.eqb Ascii.eqb Bool.eqb]. fold (plugin_g (h_plugin h) x) (params_g (h_params h) x). rewrite bind_some. split.
  - intros (p & P & H). apply bind_some in H. destruct H as (ps & Ps & H). injection H as <-. exists p, (match kids "group" x with [] => h_group h | g :: _ => get_text g end), ps. repeat split; assumption.
  - intros (p & g & ps & P & G & Ps & ->). exists p. split; [exact P|]. apply bind_some. exists ps. split; [exact Ps|]. unfold group_g in G. injection G as <-. reflexivity.
Qed.
Lemma child_as h x h' : tag x = "properties" -> parse_child stod to_int h x = Some h' <->
  exists pr po co wa, pri_g (h_prio h) x = Some pr /\ pol_g (h_policy h) x = Some po /\ cor_g (h_cores h) x = Some co /\ war_g (h_warn h) x = Some wa /\ h' = upd_as h pr po co wa.
Proof.
  intro E. unfold parse_child. rewrite E. cbn [String.eqb Ascii.eqb Bool.eqb]. unfold pri_g, pol_g, cor_g, war_g, async_g. destruct (kids "async" x) as [|a r].
  - split.
    + intro H. injection H as <-. exists (h_prio h), (h_policy h), (h_cores h), (h_warn h). repeat split. destruct h; reflexivity.
    + intros (pr & po & co & wa & A & B & C & D & ->). injection A as <-. injection B as <-. injection C as <-. injection D as <-. destruct h; reflexivity.
  - assert (PR : (match attr a "thread_priority" with None => Some (h_prio h) | Some _ => parse_priority a end) = (match get_attr a "thread_priority" with None => Some (h_prio h) | Some s => positive s end)).
    { unfold get_attr, parse_priority. destruct (attr a "thread_priority"); reflexivity. }
    cbv zeta. rewrite PR. rewrite bind_some. split.
    + intros (co & C & H). apply bind_some in H. destruct H as (pr & Pr & H). apply bind_some in H. destruct H as (wa & W & H). injection H as <-.
      exists pr, (match get_attr a "scheduling_policy" with None => h_policy h | Some s => lower s end), co, wa. split; [exact Pr|]. split; [destruct (get_attr a "scheduling_policy"); reflexivity|]. repeat split; assumption.
    + intros (pr & po & co & wa & A & B & C & D & ->). exists co. split; [exact C|]. apply bind_some. exists pr. split; [exact A|]. apply bind_some. exists wa. split; [exact D|].
      destruct (get_attr a "scheduling_policy"); injection B as <-; reflexivity.
Qed.
Definition app_lists h js ss gs ts := {| h_name := h_name h; h_type := h_type h; h_group := h_group h; h_rate := h_rate h; h_async := h_async h; h_prio := h_prio h; h_policy := h_policy h; h_cores := h_cores h;
            h_warn := h_warn h; h_plugin := h_plugin h; h_params := h_params h; h_joints := js; h_sensors := ss; h_gpios := gs; h_trans := ts |}.
Ltac others := rewrite !sel_other by (intro; congruence).
Ltac lists C :=
  match goal with |- ?t = _ -> _ => let E := fresh "E" in intro E; unfold parse_child; rewrite E end; cbn [String.eqb Ascii.eqb Bool.eqb]; rewrite bind_some; let c := fresh in let P := fresh in let H := fresh in split; [intros (c & P & H); injection H as <-; exists c; split; [apply C; exact P|reflexivity]|intros (c & P & ->); exists c; split; [apply C; exact P|reflexivity]].
Lemma child_joint h x h' : tag x = "joint" -> parse_child stod to_int h x = Some h' <-> exists c, comp_says x c /\ h' = app_lists h (h_joints h ++ [c]) (h_sensors h) (h_gpios h) (h_trans h).
Proof. lists component_iff. Qed.
Lemma child_sensor h x h' : tag x = "sensor" -> parse_child stod to_int h x = Some h' <-> exists c, comp_says x c /\ h' = app_lists h (h_joints h) (h_sensors h ++ [c]) (h_gpios h) (h_trans h).
Proof. lists component_iff. Qed.
Lemma child_gpio h x h' : tag x = "gpio" -> parse_child stod to_int h x = Some h' <-> exists c, gpio_says x c /\ h' = app_lists h (h_joints h) (h_sensors h) (h_gpios h ++ [c]) (h_trans h).
Proof. lists complex_iff. Qed.
Lemma child_trans h x h' : tag x = "transmission" -> parse_child stod to_int h x = Some h' <-> exists c, parse_trans stod x = Some c /\ h' = app_lists h (h_joints h) (h_sensors h) (h_gpios h) (h_trans h ++ [c]).
Proof. assert (I : forall x c, parse_trans stod x = Some c <-> parse_trans stod x = Some c) by (intros; reflexivity). lists I. Qed.
Lemma child_unknown h x h' : ~ In (tag x) known_tags -> parse_child stod to_int h x <> Some h'.
Proof.
  intros N. unfold parse_child. unfold known_tags in N.
  repeat match goal with |- context [if String.eqb (tag x) ?t then _ else _] => destruct (String.eqb_spec (tag x) t) as [K|_]; [exfalso; apply N; rewrite K; cbn; tauto|] end. discriminate.
Qed.
Ltac oth := rewrite !sel_other by (intro; congruence).
Lemma ch_step h0 x l h : ch h0 (x :: l) h <-> exists h', parse_child stod to_int h0 x = Some h' /\ ch h' l h.
Proof.
  destruct (in_dec string_dec (tag x) known_tags) as [K|K].
  2: { split; [intros [? ? ? ? Kn]; inversion Kn; contradiction|]. intros (h' & P & _). exfalso. eapply child_unknown; eassumption. }
  pose proof K as K'. unfold known_tags in K'. cbn in K'. destruct K' as [E|[E|[E|[E|[E|[E|[]]]]]]]; symmetry in E.
  - split.
    + intros [A1 A2 A3 A4 Kn A5 A6 A7 A8 A9 A10 A11 A12 A13 A14 A15]. rewrite !(sel_other _ x l) in * by congruence. rewrite sel_same in * by exact E.
      apply plugin_step in A5. destruct A5 as (p & P & A5). apply group_step in A6. destruct A6 as (g & G & A6). apply params_step in A7. destruct A7 as (ps & Ps & A7). inversion Kn; subst.
      exists (upd_hw h0 g p ps). split; [apply child_hw; [exact E|]; exists p, g, ps; repeat split; assumption|]. constructor; assumption.
    + intros (h' & P & [A1 A2 A3 A4 Kn A5 A6 A7 A8 A9 A10 A11 A12 A13 A14 A15]). apply (child_hw _ _ _ E) in P. destruct P as (p & g & ps & P & G & Ps & ->).
      constructor; try assumption; try (rewrite (sel_other _ x l) by congruence; assumption); try (constructor; assumption); rewrite sel_same by exact E; [apply plugin_step|apply group_step|apply params_step]; eexists; split; eassumption.
  - split.
    + intros [A1 A2 A3 A4 Kn A5 A6 A7 A8 A9 A10 A11 A12 A13 A14 A15]. rewrite !(sel_other _ x l) in * by congruence. rewrite sel_same in * by exact E.
      apply pri_step in A8. destruct A8 as (pr & Pr & A8). apply pol_step in A9. destruct A9 as (po & Po & A9). apply cor_step in A10. destruct A10 as (co & Co & A10). apply war_step in A11. destruct A11 as (wa & Wa & A11). inversion Kn; subst.
      exists (upd_as h0 pr po co wa). split; [apply child_as; [exact E|]; exists pr, po, co, wa; repeat split; assumption|]. constructor; assumption.
    + intros (h' & P & [A1 A2 A3 A4 Kn A5 A6 A7 A8 A9 A10 A11 A12 A13 A14 A15]). apply (child_as _ _ _ E) in P. destruct P as (pr & po & co & wa & Pr & Po & Co & Wa & ->).
      constructor; try assumption; try (rewrite (sel_other _ x l) by congruence; assumption); try (constructor; assumption); rewrite sel_same by exact E; [apply pri_step|apply pol_step|apply cor_step|apply war_step]; eexists; split; eassumption.
  - split.
    + intros [A1 A2 A3 A4 Kn A5 A6 A7 A8 A9 A10 A11 A12 A13 A14 A15]. rewrite !(sel_other _ x l) in * by congruence. rewrite sel_same in * by exact E.
      apply grows_cons in A12. destruct A12 as (c & C & A12). inversion Kn; subst. eexists. split; [apply child_joint; [exact E|]; exists c; split; [exact C|reflexivity]|]. constructor; assumption.
    + intros (h' & P & [A1 A2 A3 A4 Kn A5 A6 A7 A8 A9 A10 A11 A12 A13 A14 A15]). apply (child_joint _ _ _ E) in P. destruct P as (c & P & ->).
      constructor; try assumption; try (rewrite (sel_other _ x l) by congruence; assumption); try (constructor; assumption); rewrite sel_same by exact E; apply grows_cons; eexists; split; eassumption.
  - split.
    + intros [A1 A2 A3 A4 Kn A5 A6 A7 A8 A9 A10 A11 A12 A13 A14 A15]. rewrite !(sel_other _ x l) in * by congruence. rewrite sel_same in * by exact E.
      apply grows_cons in A13. destruct A13 as (c & C & A13). inversion Kn; subst. eexists. split; [apply child_sensor; [exact E|]; exists c; split; [exact C|reflexivity]|]. constructor; assumption.
    + intros (h' & P & [A1 A2 A3 A4 Kn A5 A6 A7 A8 A9 A10 A11 A12 A13 A14 A15]). apply (child_sensor _ _ _ E) in P. destruct P as (c & P & ->).
      constructor; try assumption; try (rewrite (sel_other _ x l) by congruence; assumption); try (constructor; assumption); rewrite sel_same by exact E; apply grows_cons; eexists; split; eassumption.
  - split.
    + intros [A1 A2 A3 A4 Kn A5 A6 A7 A8 A9 A10 A11 A12 A13 A14 A15]. rewrite !(sel_other _ x l) in * by congruence. rewrite sel_same in * by exact E.
      apply grows_cons in A14. destruct A14 as (c & C & A14). inversion Kn; subst. eexists. split; [apply child_gpio; [exact E|]; exists c; split; [exact C|reflexivity]|]. constructor; assumption.
    + intros (h' & P & [A1 A2 A3 A4 Kn A5 A6 A7 A8 A9 A10 A11 A12 A13 A14 A15]). apply (child_gpio _ _ _ E) in P. destruct P as (c & P & ->).
      constructor; try assumption; try (rewrite (sel_other _ x l) by congruence; assumption); try (constructor; assumption); rewrite sel_same by exact E; apply grows_cons; eexists; split; eassumption.
  - split.
    + intros [A1 A2 A3 A4 Kn A5 A6 A7 A8 A9 A10 A11 A12 A13 A14 A15]. rewrite !(sel_other _ x l) in * by congruence. rewrite sel_same in * by exact E.
      apply grows_cons in A15. destruct A15 as (c & C & A15). inversion Kn; subst. eexists. split; [apply child_trans; [exact E|]; exists c; split; [exact C|reflexivity]|]. constructor; assumption.
    + intros (h' & P & [A1 A2 A3 A4 Kn A5 A6 A7 A8 A9 A10 A11 A12 A13 A14 A15]). apply (child_trans _ _ _ E) in P. destruct P as (c & P & ->).
      constructor; try assumption; try (rewrite (sel_other _ x l) by congruence; assumption); try (constructor; assumption); rewrite sel_same by exact E; apply grows_cons; eexists; split; eassumption.
Qed.
Lemma children_iff l : forall h0 h, parse_children stod to_int h0 l = Some h <-> ch h0 l h.
Proof.
  induction l as [|x l IH]; intros h0 h; cbn [parse_children].
  - rewrite ch_nil. split; congruence.
  - rewrite bind_some, ch_step. split; intros (h' & A & B); exists h'; (split; [exact A|apply IH; exact B]).
Qed.
Lemma known_iff x : (forall t, kids t x <> [] -> In t known_tags) <-> Forall (fun c => In (tag c) known_tags) (children x).
Proof.
  rewrite Forall_forall. split.
  - intros H c C. apply H. intro E. assert (I : In c (kids (tag c) x)) by (apply filter_In; split; [exact C|apply String.eqb_refl]). rewrite E in I. destruct I.
  - intros H t N. destruct (kids t x) as [|c r] eqn:E; [congruence|]. assert (I : In c (kids t x)) by (rewrite E; left; reflexivity). apply filter_In in I. destruct I as [I T]. apply String.eqb_eq in T. subst. apply H. exact I.
Qed.
Lemma resource_iff x h : parse_resource stod to_int x = Some h <-> hw_says stod to_int x h.
Proof.
  unfold parse_resource. split.
  - intro H. apply bind_some in H. destruct H as (n & N & H). apply bind_some in H. destruct H as (ty & Ty & H). apply bind_some in H. destruct H as (ra & Ra & H). apply bind_some in H. destruct H as (asy & As & H).
    apply bind_some in H. destruct H as (pr & Pr & H). apply bind_some in H. destruct H as (h1 & C & H). apply bind_some in H. destruct H as (ts & T & H). injection H as <-.
    apply children_iff in C. destruct C as [A1 A2 A3 A4 Kn A5 A6 A7 A8 A9 A10 A11 A12 A13 A14 A15].
    cbn [h_name h_type h_group h_rate h_async h_prio h_policy h_cores h_warn h_plugin h_params h_joints h_sensors h_gpios h_trans] in *.
    constructor; cbn [h_name h_type h_group h_rate h_async h_prio h_policy h_cores h_warn h_plugin h_params h_joints h_sensors h_gpios h_trans]; try assumption.
    + rewrite A1. apply get_attr_some. exact N.
    + rewrite A2. apply get_attr_some. exact Ty.
    + rewrite A3. apply rate_iff. exact Ra.
    + rewrite A4. apply is_async_iff. exact As.
    + apply known_iff. exact Kn.
    + exists pr. split; [|exact A8]. rewrite A4. destruct asy; [left; split; [reflexivity|apply priority_iff; exact Pr]|right; split; [reflexivity|injection Pr as <-; reflexivity]].
    + destruct A12 as (js & -> & J). exact J.
    + destruct A13 as (js & -> & J). exact J.
    + destruct A14 as (js & -> & J). exact J.
    + destruct A15 as (t0 & E & J). rewrite E in T. cbn [app] in T. apply mapM_some in T. apply (proj1 (F2_iff _ _ _ _ (trans_iff stod to_int (h_type h1) (h_joints h1)))). apply F2_comp. exists t0. split; assumption.
  - intros [N Ty Ra As Kn A5 A6 A7 (pr & Pr & A8) A9 A10 A11 A12 A13 A14 A15]. apply get_attr_some in N, Ty. apply rate_iff in Ra. apply is_async_iff in As. rewrite N. cbn [bind]. rewrite Ty. cbn [bind]. rewrite Ra. cbn [bind]. rewrite As. cbn [bind].
    assert (P : (if h_async h then parse_priority x else Some int_max) = Some pr) by (destruct Pr as [[-> Pr]|[-> ->]]; [apply priority_iff; exact Pr|reflexivity]). rewrite P. cbn [bind].
    assert (T : Forall2 (fun y t => exists t0, parse_trans stod y = Some t0 /\ fill_trans (h_type h) (h_joints h) t0 = Some t) (kids "transmission" x) (h_trans h)).
    { apply (proj2 (F2_iff _ _ _ _ (trans_iff stod to_int (h_type h) (h_joints h)))). exact A15. }
    apply F2_comp in T. destruct T as (ts0 & T0 & T1).
    match goal with |- bind (parse_children _ _ ?a _) _ = _ => set (h0 := a) end.
    assert (C : parse_children stod to_int h0 (children x) = Some (app_lists h (h_joints h) (h_sensors h) (h_gpios h) ts0)).
    { apply children_iff. constructor; try reflexivity; try assumption; [apply known_iff; exact Kn|eexists; split; [reflexivity|]; eassumption..]. }
    rewrite C. cbn [bind app_lists h_name h_type h_group h_rate h_async h_prio h_policy h_cores h_warn h_plugin h_params h_joints h_sensors h_gpios h_trans].
    apply mapM_some in T1. rewrite T1. cbn [bind]. destruct h; reflexivity.
Qed.
Lemma order_free x x' : tag x = tag x' -> attrs x = attrs x' -> (forall t, kids t x = kids t x') -> parse_resource stod to_int x = parse_resource stod to_int x'.
Proof.
  intros _ A K. assert (S : forall x x', attrs x = attrs x' -> (forall t, kids t x = kids t x') -> forall h, hw_says stod to_int x h -> hw_says stod to_int x' h).
  { clear. intros x x' A K h [H1 H2 H3 H4 H5 H6 H7 H8 H9 H10 H11 H12 H13 H14 H15 H16]. assert (A' : forall k, attr x' k = attr x k) by (intro k; unfold attr; rewrite A; reflexivity).
    constructor; unfold attr_says, attr_opt, attr_says in *; try (rewrite A'; assumption); try (rewrite <- K; assumption).
    - intros t. rewrite <- K. apply H5.
    - destruct H9 as (b & B & L). exists b. rewrite <- K. split; [|exact L]. unfold attr_says in *. rewrite A'. exact B. }
  destruct (parse_resource stod to_int x) as [h|] eqn:E.
  - symmetry. apply resource_iff. apply (S x x' A K). apply resource_iff. exact E.
  - destruct (parse_resource stod to_int x') as [h|] eqn:E'; [|reflexivity]. apply resource_iff in E'. apply (S x' x) in E'; [|congruence|intro; symmetry; apply K]. apply resource_iff in E'. congruence.
Qed.
End P.
