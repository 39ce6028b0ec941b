From Coq Require Import List Bool String Ascii Lia.
From Verif Require Import ParamModel ParamSpec ParamProofs.
From Verif Require LimitsModel.
Import ListNotations.
Open Scope string_scope.
Open Scope list_scope.

(** several sets before the next enforce: the last one with an effect is the only one that counts *)
Lemma run_sets pss : forall s, in_use (run s (map Set_ pss)) = in_use s /\ joints (run s (map Set_ pss)) = joints s.
Proof.
  induction pss as [|ps pss IH]; intro s; cbn; [auto|]. destruct (IH (on_set s ps)) as [A B]. split.
  - etransitivity; [exact A|apply set_in_use].
  - etransitivity; [exact B|apply set_joints].
Qed.
Lemma run_app a b s : run s (a ++ b) = run (run s a) b. Proof. apply fold_left_app. Qed.
Theorem last_wins s pss ps : well_formed s -> settled s ->
  in_use (run s [Set_ ps; Enforce]) <> in_use s ->
  in_use (run s (map Set_ (pss ++ [ps]) ++ [Enforce])) = in_use (run s [Set_ ps; Enforce]).
Proof.
  intros W S H. rewrite map_app, run_app, run_app. destruct (run_sets pss s) as [A B]. set (s1 := run s (map Set_ pss)) in *. cbn in *.
  unfold on_set in *. rewrite A, B. set (res := map _ (combine (joints s) (in_use s))) in *.
  destruct (existsb snd res); [reflexivity|]. cbn in H. unfold settled in S. congruence.
Qed.

(** a batch of numbers *)
Lemma number_fold_other j ps : forall acc g, (forall p, In p ps -> fst p <> pname j (nf_name g)) ->
  num (fst (fold_left (number_step j) ps acc)) g = num (fst acc) g.
Proof.
  induction ps as [|p ps IH]; intros acc g H; cbn [fold_left]; [reflexivity|]. rewrite IH by (intros q I; apply H; right; exact I).
  unfold number_step. destruct (find _ nfs) as [f|] eqn:E; [|reflexivity]. apply find_some in E. destruct E as [_ E]. apply String.eqb_eq in E.
  destruct (snd p); try reflexivity. cbn. destruct (nf_eqb g f) eqn:X; [|reflexivity]. apply nf_eqb_eq in X. subst. exfalso. apply (H p); [left; reflexivity|exact E].
Qed.
Lemma number_flags j ps : forall acc g, flag (fst (fold_left (number_step j) ps acc)) g = flag (fst acc) g.
Proof.
  induction ps as [|p ps IH]; intros acc g; cbn [fold_left]; [reflexivity|]. rewrite IH. unfold number_step. destruct (find _ nfs); [|reflexivity]. destruct (snd p); reflexivity.
Qed.
Lemma flag_nums j ps : forall acc g, num (fst (fold_left (flag_step j) ps acc)) g = num (fst acc) g.
Proof.
  induction ps as [|p ps IH]; intros acc g; cbn [fold_left]; [reflexivity|]. rewrite IH. unfold flag_step. destruct (find _ bfs) as [f|]; [|reflexivity]. destruct (snd p) as [|b|]; try reflexivity.
  destruct f; cbv zeta; repeat match goal with |- context[if ?b then _ else _] => destruct b end; reflexivity.
Qed.
Lemma number_fold_in j ps : forall acc g x, NoDup (map fst ps) -> In (pname j (nf_name g), VDouble x) ps ->
  num (fst (fold_left (number_step j) ps acc)) g = x.
Proof.
  induction ps as [|p ps IH]; intros acc g x N I; [destruct I|]. cbn [fold_left]. cbn in N. inversion N as [|? ? NI N']; subst.
  destruct I as [->|I]; [|apply IH; assumption].
  rewrite number_fold_other.
  - unfold number_step. cbn [fst snd]. rewrite find_nf. cbn. destruct g; reflexivity.
  - intros q I E. apply NI. apply in_map_iff. exists q. auto.
Qed.
(** the answer of a batch of numbers that all differ from the old ones *)
Definition nums (j : string) (fx : list (nf * F)) : list param := map (fun p => (pname j (nf_name (fst p)), VDouble (snd p))) fx.
Lemma number_fold_changed j fx : forall acc, fx <> [] -> NoDup (map fst fx) -> (forall f x, In (f, x) fx -> feq (num (fst acc) f) x = false) ->
  snd (fold_left (number_step j) (nums j fx) acc) = true.
Proof.
  induction fx as [|[f x] fx IH]; intros acc NE N H; [congruence|]. cbn [nums map fold_left fst snd]. cbn in N. inversion N as [|? ? NI N']; subst.
  assert (E : number_step j acc (pname j (nf_name f), VDouble x) = (set_num (fst acc) f x, true)).
  { unfold number_step. cbn [fst snd]. rewrite find_nf. rewrite (H f x) by (left; reflexivity). reflexivity. }
  rewrite E. destruct fx as [|q fx]; [reflexivity|]. apply IH; [discriminate|exact N'|].
  intros f' x' I. cbn. destruct (nf_eqb f' f) eqn:Q.
  - apply nf_eqb_eq in Q. subst. exfalso. apply NI. apply in_map_iff. exists (f, x'). auto.
  - apply H. right. exact I.
Qed.
Lemma flag_fold_nums j fx : forall acc, fold_left (flag_step j) (nums j fx) acc = acc.
Proof.
  induction fx as [|[f x] fx IH]; intro acc; cbn [nums map fold_left]; [reflexivity|]. unfold flag_step at 2. cbn [fst snd]. rewrite find_bf_nf. apply IH.
Qed.
Lemma NoDup_pnames j fx : NoDup (map fst fx) -> NoDup (map fst (nums j fx)).
Proof.
  induction fx as [|[f x] fx IH]; cbn; intro N; [constructor|]. inversion N as [|? ? NI N']; subst. constructor; [|apply IH, N'].
  intro I. apply in_map_iff in I. destruct I as (p & E & I). unfold nums in I. apply in_map_iff in I. destruct I as ([g y] & <- & I). cbn [fst] in E.
  apply pname_inj in E; [|apply nf_dot|apply nf_dot]. destruct E as [_ E]. apply nf_name_inj in E. subst. apply NI. apply in_map_iff. exists (f, y). auto.
Qed.
Theorem batch s i fx : well_formed s -> settled s -> (i < List.length (joints s))%nat -> NoDup (map fst fx) ->
  (forall f x, In (f, x) fx -> feq (num (at_joint s i) f) x = false) ->
  let j := nth i (joints s) "" in
  let s' := on_enforce (on_set s (map (fun p => (("joint_limits." ++ j ++ "." ++ nf_name (fst p))%string, VDouble (snd p))) fx)) in
  (forall f x, In (f, x) fx -> num (at_joint s' i) f = x) /\
  (forall f, ~ In f (map fst fx) -> num (at_joint s' i) f = num (at_joint s i) f) /\
  (forall f, flag (at_joint s' i) f = flag (at_joint s i) f).
Proof.
  intros W S L N H j s'. change (map _ fx) with (nums j fx) in s'.
  assert (C : check_update j (nums j fx) (at_joint s i) = fold_left (number_step j) (nums j fx) (at_joint s i, false)).
  { unfold check_update. apply flag_fold_nums. }
  assert (E : fx <> [] -> at_joint s' i = fst (fold_left (number_step j) (nums j fx) (at_joint s i, false))).
  { intro NE. unfold s'. rewrite (after_set s _ i W S L). fold j. rewrite C.
    assert (X : existsb (fun k => snd (check_update (nth k (joints s) "") (nums j fx) (at_joint s k))) (seq 0 (List.length (joints s))) = true).
    { apply existsb_exists. exists i. split; [apply in_seq; lia|]. fold j. rewrite C. apply number_fold_changed; auto. }
    rewrite X. reflexivity. }
  destruct fx as [|q fx].
  - assert (E0 : at_joint s' i = at_joint s i).
    { unfold s'. rewrite (after_set s _ i W S L). fold j. rewrite C. cbn. destruct (existsb _ _); reflexivity. }
    rewrite E0. repeat split; intros; auto. destruct H0.
  - rewrite E by discriminate. split; [|split].
    + intros f x I. apply (number_fold_in j (nums j (q :: fx)) _ f x (NoDup_pnames j _ N)). unfold nums. apply in_map_iff. exists (f, x). auto.
    + intros f I. rewrite number_fold_other; [reflexivity|]. intros p P. unfold nums in P. apply in_map_iff in P. destruct P as ([g y] & <- & P).
      cbn [fst]. intro Q. apply pname_inj in Q; [|apply nf_dot|apply nf_dot]. destruct Q as [_ Q]. apply nf_name_inj in Q. subst. apply I. apply in_map_iff. exists (f, y). auto.
    + intro f. rewrite number_flags. reflexivity.
Qed.

(** a limit can be switched on together with its number, in either order *)
Theorem on_with_number s i f x ps : well_formed s -> settled s -> (i < List.length (joints s))%nat ->
  f <> HasP -> f <> Wrap -> LimitsModel.isnan x = false ->
  let j := nth i (joints s) "" in
  let a := (("joint_limits." ++ j ++ "." ++ nf_name (bound_of f))%string, VDouble x) in
  let b := (("joint_limits." ++ j ++ "." ++ bf_name f)%string, VBool true) in
  ps = [a; b] \/ ps = [b; a] ->
  let s' := on_enforce (on_set s ps) in
  flag (at_joint s' i) f = true /\ num (at_joint s' i) (bound_of f) = x.
Proof.
  intros W S L N1 N2 X j a b P s'.
  change a with (pname j (nf_name (bound_of f)), VDouble x) in P. change b with (pname j (bf_name f), VBool true) in P.
  assert (C : exists l', check_update j ps (at_joint s i) = (l', true) /\ flag l' f = true /\ num l' (bound_of f) = x).
  { exists (set_flag (set_num (at_joint s i) (bound_of f) x) f true).
    assert (Y : forall acc, number_step j acc (pname j (nf_name (bound_of f)), VDouble x) = (set_num (fst acc) (bound_of f) x, negb (feq (num (fst acc) (bound_of f)) x))) by (intro; unfold number_step; cbn [fst snd]; rewrite find_nf; reflexivity).
    assert (Y' : forall acc, number_step j acc (pname j (bf_name f), VBool true) = acc) by (intro; unfold number_step; cbn [fst snd]; rewrite find_nf_bf; reflexivity).
    assert (Z' : forall acc, flag_step j acc (pname j (nf_name (bound_of f)), VDouble x) = acc) by (intro; unfold flag_step; cbn [fst snd]; rewrite find_bf_nf; reflexivity).
    assert (Z : forall l c, LimitsModel.isnan (num l (bound_of f)) = false -> flag_step j (l, c) (pname j (bf_name f), VBool true) = (set_flag l f true, true)).
    { intros l c NN. unfold flag_step. cbn [fst snd]. rewrite find_bf. destruct f; cbn in *; try congruence; rewrite NN; reflexivity. }
    assert (NN : LimitsModel.isnan (num (set_num (at_joint s i) (bound_of f) x) (bound_of f)) = false) by (rewrite num_set; destruct f; exact X).
    split; [|split; [destruct f; reflexivity|destruct f; reflexivity]].
    destruct P as [->| ->]; unfold check_update; cbn [fold_left]; rewrite ?Y', Y, ?Y', ?Z'; cbn [fst snd]; rewrite Z by exact NN; rewrite ?Z'; reflexivity. }
  destruct C as (l' & C & A & B). unfold s'. rewrite (after_set s _ i W S L). fold j. rewrite C.
  assert (E : existsb (fun k => snd (check_update (nth k (joints s) "") ps (at_joint s k))) (seq 0 (List.length (joints s))) = true).
  { apply existsb_exists. exists i. split; [apply in_seq; lia|]. fold j. rewrite C. reflexivity. }
  rewrite E. auto.
Qed.

(** no limit with NaN *)
Lemma number_no_nan j ps : no_nan_in ps -> forall acc, no_nan (fst acc) -> no_nan (fst (fold_left (number_step j) ps acc)).
Proof.
  induction ps as [|[n v] ps IH]; intros H acc A; [exact A|]. cbn [fold_left]. apply IH; [intros m x I; apply (H m); right; exact I|].
  unfold number_step. cbn [fst snd]. destruct (find _ nfs) as [f|]; [|exact A]. destruct v as [x| |]; try exact A.
  assert (X : LimitsModel.isnan x = false) by (apply (H n); left; reflexivity).
  intros g G. specialize (A g G). destruct g; cbn in A |- *; try (match type of A with _ /\ _ => destruct A end); destruct f; cbn; auto.
Qed.
Lemma flag_no_nan j ps : forall acc, no_nan (fst acc) -> no_nan (fst (fold_left (flag_step j) ps acc)).
Proof.
  induction ps as [|[n v] ps IH]; intros acc A; [exact A|]. cbn [fold_left]. apply IH.
  unfold flag_step. cbn [fst snd]. destruct (find _ bfs) as [f|]; [|exact A]. destruct v as [|b|]; try exact A.
  assert (OFF : forall l g, no_nan l -> no_nan (set_flag l g false)).
  { intros l g K h Hh. cbn in Hh. destruct (bf_eqb h g); [discriminate|]. apply K in Hh. destruct h; exact Hh. }
  assert (ON : forall l g, no_nan l -> isnan_free l g -> no_nan (set_flag l g true)).
  { intros l g K I h Hh. cbn in Hh. destruct (bf_eqb h g) eqn:E; [apply bf_eqb_eq in E; subst; destruct g; exact I|]. apply K in Hh. destruct h; exact Hh. }
  assert (SS : forall l g c, set_flag (set_flag l g c) g false = set_flag (set_flag l g c) g false) by reflexivity.
  assert (OFF2 : forall l g c, no_nan l -> no_nan (set_flag (set_flag l g c) g false)).
  { intros l g c K h Hh. cbn in Hh. destruct (bf_eqb h g) eqn:E; [discriminate|]. apply K in Hh. destruct h; exact Hh. }
  destruct f; cbv zeta; cbn [fst snd]; destruct b; cbn [andb];
   repeat match goal with |- context[if ?b then _ else _] => destruct b eqn:? end; cbn [fst]; try (apply OFF2, A); try (apply OFF, A);
   apply ON; try exact A; cbn in *; auto;
   match goal with H : orb _ _ = false |- _ => apply orb_false_iff in H; exact H end.
Qed.
Lemma update_no_nan j ps l : no_nan_in ps -> no_nan l -> no_nan (fst (check_update j ps l)).
Proof. intros H A. unfold check_update. apply flag_no_nan. apply number_no_nan; assumption. Qed.
Theorem run_no_nan os : forall s, (forall l, In l (in_use s) -> no_nan l) -> (forall l, In l (buffered s) -> no_nan l) ->
  (forall ps, In (Set_ ps) os -> no_nan_in ps) -> forall l, In l (in_use (run s os)) -> no_nan l.
Proof.
  induction os as [|o os IH]; intros s A B H; [exact A|]. cbn. apply IH; [| |intros ps I; apply H; right; exact I].
  - destruct o as [ps|]; cbn; [rewrite set_in_use; exact A|exact B].
  - destruct o as [ps|]; cbn; [|exact B]. unfold on_set. destruct (existsb _ _); [|exact B]. cbn. intros l I.
    rewrite map_map in I. apply in_map_iff in I. destruct I as ([j l0] & <- & I). cbn. apply update_no_nan; [apply H; left; reflexivity|].
    apply in_combine_r in I. apply A, I.
Qed.

(** the start: what the parameters say *)
Lemma declare1_keep sv n d sv' m : declare1 sv n d = Some sv' -> sv' m = sv m \/ (m = n /\ sv m = None /\ sv' m = Some d).
Proof.
  unfold declare1. destruct (sv n) as [v|] eqn:E.
  - destruct v, d; intro H; try discriminate; injection H as <-; auto.
  - intro H. injection H as <-. destruct (String.eqb m n) eqn:Q; [|auto]. apply String.eqb_eq in Q. subst. auto.
Qed.
Definition fits (v d : value) : Prop := match v, d with VDouble _, VDouble _ | VBool _, VBool _ => True | _, _ => False end.
Lemma declare1_fits sv n d sv' : declare1 sv n d = Some sv' -> d <> VOther -> exists v, sv' n = Some v /\ fits v d.
Proof.
  unfold declare1. destruct (sv n) as [v|] eqn:E.
  - destruct v, d; intro H; try discriminate; injection H as <-; intros; eexists; (split; [exact E|exact I]).
  - intros H N. injection H as <-. rewrite String.eqb_refl. exists d. split; [reflexivity|]. destruct d; cbn; auto.
Qed.
Lemma declare_all_keep ns : forall sv sv', declare_all sv ns = Some sv' -> forall m, sv' m = sv m \/ (sv m = None /\ exists d, In (m, d) ns /\ sv' m = Some d).
Proof.
  induction ns as [|[n d] ns IH]; intros sv sv' H m; cbn in H.
  - injection H as <-. auto.
  - destruct (declare1 sv n d) as [sv1|] eqn:D; [|discriminate].
    destruct (declare1_keep sv n d sv1 m D) as [E|(-> & E0 & E1)].
    + destruct (IH _ _ H m) as [K|(K0 & e & I & K1)]; [left; congruence|]. right. split; [congruence|]. exists e. split; [right; exact I|exact K1].
    + destruct (IH _ _ H n) as [K|(K0 & _)]; [|congruence]. right. split; [exact E0|]. exists d. split; [left; reflexivity|congruence].
Qed.
Lemma declare_all_fits ns : forall sv sv', declare_all sv ns = Some sv' -> forall n d, In (n, d) ns -> d <> VOther -> exists v, sv' n = Some v /\ fits v d.
Proof.
  induction ns as [|[n d] ns IH]; intros sv sv' H m e I N; [destruct I|]. cbn in H. destruct (declare1 sv n d) as [sv1|] eqn:D; [|discriminate].
  destruct I as [I|I]; [|apply (IH _ _ H _ _ I N)]. injection I as -> ->. destruct (declare1_fits _ _ _ _ D N) as (v & V & F).
  destruct (declare_all_keep ns _ _ H m) as [K|(K & _)]; [|congruence]. exists v. split; [congruence|exact F].
Qed.
Lemma declared_default j n d : In (n, d) (declared j) -> (exists f, n = pname j (nf_name f) /\ d = VDouble LimitsModel.nan) \/ (exists f, n = pname j (bf_name f) /\ d = VBool false).
Proof.
  unfold declared. intro H. apply in_app_iff in H. destruct H as [H|H]; apply in_map_iff in H; destruct H as (f & E & _); injection E as <- <-; [left|right]; exists f; auto.
Qed.
Lemma says_keep sv j sv' : declare_parameters sv j = Some sv' -> forall k, (forall f, says_flag sv' k f = says_flag sv k f) /\ (forall f, says_num sv' k f = says_num sv k f).
Proof.
  intros D k. unfold says_flag, says_num. split; intro f;
   [change ("joint_limits." ++ k ++ "." ++ bf_name f)%string with (pname k (bf_name f))|change ("joint_limits." ++ k ++ "." ++ nf_name f)%string with (pname k (nf_name f))].
  - destruct (declare_all_keep _ _ _ D (pname k (bf_name f))) as [E|(E & d & I & E')]; [rewrite E; reflexivity|]. rewrite E, E'.
    apply declared_default in I. destruct I as [(g & Q & ->)|(g & Q & ->)]; reflexivity.
  - destruct (declare_all_keep _ _ _ D (pname k (nf_name f))) as [E|(E & d & I & E')]; [rewrite E; reflexivity|]. rewrite E, E'.
    apply declared_default in I. destruct I as [(g & Q & ->)|(g & Q & ->)]; reflexivity.
Qed.
Lemma declared_flag sv j sv' f : declare_parameters sv j = Some sv' -> get_bool sv' j f = Some (says_flag sv j f).
Proof.
  intro D. destruct (says_keep sv j sv' D j) as [A _]. rewrite <- A.
  destruct (declare_all_fits _ _ _ D (pname j (bf_name f)) (VBool false)) as (v & V & F).
  - unfold declared. apply in_app_iff. right. apply in_map_iff. exists f. split; [reflexivity|apply in_bfs].
  - discriminate.
  - unfold get_bool, says_flag. change ("joint_limits." ++ j ++ "." ++ bf_name f)%string with (pname j (bf_name f)). rewrite V. destruct v; cbn in F; try destruct F. reflexivity.
Qed.
Lemma declared_num sv j sv' f : declare_parameters sv j = Some sv' -> get_num sv' j f = Some (says_num sv j f).
Proof.
  intro D. destruct (says_keep sv j sv' D j) as [_ A]. rewrite <- A.
  destruct (declare_all_fits _ _ _ D (pname j (nf_name f)) (VDouble LimitsModel.nan)) as (v & V & F).
  - unfold declared. apply in_app_iff. left. apply in_map_iff. exists f. split; [reflexivity|apply in_nfs].
  - discriminate.
  - unfold get_num, says_num. change ("joint_limits." ++ j ++ "." ++ nf_name f)%string with (pname j (nf_name f)). rewrite V. destruct v; cbn in F; try destruct F. reflexivity.
Qed.
Lemma get_said sv j sv' : declare_parameters sv j = Some sv' -> as_said sv j (get_joint_limits sv' j unset).
Proof.
  intro D. unfold get_joint_limits, get_one, get_pos.
  rewrite !(declared_flag _ _ _ _ D), !(declared_num _ _ _ _ D).
  unfold as_said. generalize (says_num sv j); intro nm.
  destruct (says_flag sv j HasP) eqn:E1; destruct (says_flag sv j HasV) eqn:E2; destruct (says_flag sv j HasA) eqn:E3; destruct (says_flag sv j HasD) eqn:E4;
  destruct (says_flag sv j HasJ) eqn:E5; destruct (says_flag sv j HasE) eqn:E6; destruct (says_flag sv j Wrap) eqn:E7;
  (repeat split; try (let f := fresh in intro f; destruct f; intros; cbn in *; congruence); try reflexivity; try discriminate).
Qed.
Theorem init_said sv js s : init sv js = Some s -> well_formed s /\ settled s /\ joints s = js /\
  forall i, (i < List.length js)%nat -> as_said sv (nth i js "") (at_joint s i).
Proof.
  unfold init. destruct (init_all sv js) as [[sv2 ls]|] eqn:E; [|discriminate]. intro H. injection H as <-.
  assert (G : forall js sv sv2 ls, init_all sv js = Some (sv2, ls) -> List.length ls = List.length js /\ forall i, (i < List.length js)%nat -> as_said sv (nth i js "") (nth i ls unset)).
  { clear. induction js as [|j js IH]; intros sv sv2 ls E; cbn [init_all] in E.
    - inversion E; subst; clear E. split; [reflexivity|]. intros i L. cbn in L. lia.
    - destruct (declare_parameters sv j) as [sv'|] eqn:D; [|discriminate]. destruct (init_all sv' js) as [[sv3 ls']|] eqn:I; [|discriminate].
      inversion E; subst; clear E. destruct (IH _ _ _ I) as [A B]. split; [cbn; congruence|]. intros [|i] L; cbn; [apply get_said, D|].
      specialize (B i ltac:(cbn in L; lia)). destruct (says_keep _ _ _ D (nth i js "")) as [K1 K2]. unfold as_said in *.
      rewrite !K1 in B. destruct B as (B1 & B2 & B3 & B4). rewrite !K2 in B3. split; [|split; [|split]]; auto.
      + intros f N. rewrite <- K1. auto.
      + intros f N M S. rewrite <- K1 in S. rewrite <- K2. auto. }
  destruct (G _ _ _ _ E) as [A B]. split; [split; exact A|]. split; [reflexivity|]. split; [reflexivity|exact B].
Qed.
