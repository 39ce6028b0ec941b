From Coq Require Import List Bool String Ascii Lia.
From Verif Require Import ParamModel ParamSpec.
From Verif Require LimitsModel.
Import ListNotations.
Open Scope string_scope.
Open Scope list_scope.

(** names *)
Fixpoint dotted (s : string) : bool := match s with EmptyString => false | String c r => Ascii.eqb c "."%char || dotted r end.
Lemma dotted_app a b : dotted (a ++ String "."%char b)%string = true.
Proof. induction a as [|c a IH]; cbn; [reflexivity|]. rewrite IH. apply orb_true_r. Qed.
Lemma split_last j j' f f' : dotted f = false -> dotted f' = false -> (j ++ String "."%char f = j' ++ String "."%char f')%string -> j = j' /\ f = f'.
Proof.
  intros D D'. revert j'. induction j as [|c j IH]; intros [|c' j'] E; cbn in E.
  - injection E as E. auto.
  - injection E as _ E. subst. rewrite dotted_app in D. discriminate.
  - injection E as _ E. subst. rewrite dotted_app in D'. discriminate.
  - injection E as -> E. destruct (IH _ E) as [-> ->]. auto.
Qed.
Lemma pname_inj j j' f f' : dotted f = false -> dotted f' = false -> pname j f = pname j' f' -> j = j' /\ f = f'.
Proof. intros D D' E. unfold pname in E. cbn in E. repeat (injection E as E). apply (split_last _ _ _ _ D D'). exact E. Qed.
Lemma nf_dot f : dotted (nf_name f) = false. Proof. destruct f; reflexivity. Qed.
Lemma bf_dot f : dotted (bf_name f) = false. Proof. destruct f; reflexivity. Qed.
Lemma nf_name_inj f g : nf_name f = nf_name g -> f = g. Proof. destruct f, g; intro H; try reflexivity; discriminate. Qed.
Lemma bf_name_inj f g : bf_name f = bf_name g -> f = g. Proof. destruct f, g; intro H; try reflexivity; discriminate. Qed.
Lemma nf_bf f g : nf_name f <> bf_name g. Proof. destruct f, g; discriminate. Qed.
Lemma nf_eqb_eq a b : nf_eqb a b = true <-> a = b. Proof. destruct a, b; split; intro H; try reflexivity; discriminate. Qed.
Lemma bf_eqb_eq a b : bf_eqb a b = true <-> a = b. Proof. destruct a, b; split; intro H; try reflexivity; discriminate. Qed.
Lemma in_nfs f : In f nfs. Proof. destruct f; cbn; tauto. Qed.
Lemma in_bfs f : In f bfs. Proof. destruct f; cbn; tauto. Qed.

Lemma find_nf j g : find (fun f => String.eqb (pname j (nf_name g)) (pname j (nf_name f))) nfs = Some g.
Proof.
  destruct (find (fun f => String.eqb (pname j (nf_name g)) (pname j (nf_name f))) nfs) as [f|] eqn:E.
  - apply find_some in E. destruct E as [_ E]. apply String.eqb_eq in E. apply pname_inj in E; [|apply nf_dot|apply nf_dot].
    destruct E as [_ E]. apply nf_name_inj in E. congruence.
  - exfalso. pose proof (find_none _ _ E g (in_nfs g)) as E'. cbv beta in E'. rewrite String.eqb_refl in E'. discriminate.
Qed.
Lemma find_bf j g : find (fun f => String.eqb (pname j (bf_name g)) (pname j (bf_name f))) bfs = Some g.
Proof.
  destruct (find (fun f => String.eqb (pname j (bf_name g)) (pname j (bf_name f))) bfs) as [f|] eqn:E.
  - apply find_some in E. destruct E as [_ E]. apply String.eqb_eq in E. apply pname_inj in E; [|apply bf_dot|apply bf_dot].
    destruct E as [_ E]. apply bf_name_inj in E. congruence.
  - exfalso. pose proof (find_none _ _ E g (in_bfs g)) as E'. cbv beta in E'. rewrite String.eqb_refl in E'. discriminate.
Qed.
Lemma find_nf_bf j j' g : find (fun f => String.eqb (pname j' (bf_name g)) (pname j (nf_name f))) nfs = None.
Proof.
  destruct (find (fun f => String.eqb (pname j' (bf_name g)) (pname j (nf_name f))) nfs) as [f|] eqn:E; [|reflexivity].
  apply find_some in E. destruct E as [_ E]. apply String.eqb_eq in E. apply pname_inj in E; [|apply bf_dot|apply nf_dot].
  destruct E as [_ E]. symmetry in E. apply nf_bf in E. destruct E.
Qed.
Lemma find_bf_nf j j' g : find (fun f => String.eqb (pname j' (nf_name g)) (pname j (bf_name f))) bfs = None.
Proof.
  destruct (find (fun f => String.eqb (pname j' (nf_name g)) (pname j (bf_name f))) bfs) as [f|] eqn:E; [|reflexivity].
  apply find_some in E. destruct E as [_ E]. apply String.eqb_eq in E. apply pname_inj in E; [|apply nf_dot|apply bf_dot].
  destruct E as [_ E]. apply nf_bf in E. destruct E.
Qed.
Lemma not_concerns j p : ~ concerns j p ->
  find (fun f => String.eqb (fst p) (pname j (nf_name f))) nfs = None /\ find (fun f => String.eqb (fst p) (pname j (bf_name f))) bfs = None.
Proof.
  intro H. split.
  - destruct (find _ nfs) as [f|] eqn:E; [|reflexivity]. apply find_some in E. destruct E as [_ E]. apply String.eqb_eq in E.
    exfalso. apply H. left. exists f. exact E.
  - destruct (find _ bfs) as [f|] eqn:E; [|reflexivity]. apply find_some in E. destruct E as [_ E]. apply String.eqb_eq in E.
    exfalso. apply H. right. exists f. exact E.
Qed.
Lemma other_joint j j' f : j <> j' -> dotted f = false -> forall v, ~ concerns j (pname j' f, v).
Proof.
  intros N D v [[g H]|[g H]]; cbn [fst] in H; fold (pname j (nf_name g)) in H || fold (pname j (bf_name g)) in H.
  - change (pname j' f = pname j (nf_name g)) in H. apply pname_inj in H; [|exact D|apply nf_dot]. destruct H; congruence.
  - change (pname j' f = pname j (bf_name g)) in H. apply pname_inj in H; [|exact D|apply bf_dot]. destruct H; congruence.
Qed.

(** nothing that concerns the joint *)
Lemma fold_keep {A B} (f : A -> B -> A) l a : (forall x y, In y l -> f x y = x) -> fold_left f l a = a.
Proof. revert a. induction l as [|y l IH]; intros a H; cbn; [reflexivity|]. rewrite H by (left; reflexivity). apply IH. intros x z I. apply H. right. exact I. Qed.
Lemma update_other j ps l : (forall p, In p ps -> ~ concerns j p) -> check_update j ps l = (l, false).
Proof.
  intro H. unfold check_update. rewrite (fold_keep (number_step j)).
  - apply fold_keep. intros x y I. unfold flag_step. destruct (not_concerns j y (H y I)) as [_ ->]. reflexivity.
  - intros x y I. unfold number_step. destruct (not_concerns j y (H y I)) as [-> _]. reflexivity.
Qed.

(** one parameter *)
Lemma update_num j f x l : check_update j [(pname j (nf_name f), VDouble x)] l = (set_num l f x, negb (feq (num l f) x)).
Proof. unfold check_update. cbn [fold_left]. unfold flag_step, number_step. cbn [fst snd]. rewrite find_bf_nf, find_nf. reflexivity. Qed.
Lemma update_flag j f b l : check_update j [(pname j (bf_name f), VBool b)] l = flag_step j (l, false) (pname j (bf_name f), VBool b).
Proof. unfold check_update. cbn [fold_left]. unfold number_step. cbn [fst]. rewrite find_nf_bf. reflexivity. Qed.

Lemma num_set l f x g : num (set_num l f x) g = if nf_eqb g f then x else num l g. Proof. reflexivity. Qed.

(** positions in the list *)
Lemma nth_res s ps i : well_formed s -> (i < List.length (joints s))%nat ->
  nth i (map (fun jl => check_update (fst jl) ps (snd jl)) (combine (joints s) (in_use s))) (unset, false) = check_update (nth i (joints s) "") ps (at_joint s i).
Proof.
  intros [W _] L.
  set (f := fun jl : string * lims => check_update (fst jl) ps (snd jl)).
  rewrite (nth_indep _ _ (f ("", unset))) by (rewrite map_length, combine_length; lia).
  rewrite (map_nth f). unfold f. rewrite combine_nth by (symmetry; exact W). reflexivity.
Qed.
Lemma nth_fst {A B} (l : list (A * B)) i a b : nth i (map fst l) a = fst (nth i l (a, b)).
Proof. rewrite <- (map_nth fst l (a, b) i). reflexivity. Qed.

Lemma set_wf s ps : well_formed s -> well_formed (on_set s ps).
Proof.
  intros [A B]. unfold on_set. destruct (existsb _ _); split; cbn; auto. rewrite !map_length, combine_length. lia.
Qed.
Lemma set_joints s ps : joints (on_set s ps) = joints s. Proof. unfold on_set. destruct (existsb _ _); reflexivity. Qed.
Lemma set_in_use s ps : in_use (on_set s ps) = in_use s. Proof. unfold on_set. destruct (existsb _ _); reflexivity. Qed.
Lemma run_wf os : forall s, well_formed s -> well_formed (run s os) /\ joints (run s os) = joints s.
Proof.
  induction os as [|o os IH]; intros s W; cbn; [auto|]. destruct o as [ps|].
  - destruct (IH _ (set_wf s ps W)) as [A B]. split; [exact A|]. etransitivity; [exact B|apply set_joints].
  - destruct W as [W1 W2]. destruct (IH (on_enforce s)) as [A B]; [split; exact W2|]. split; [exact A|exact B].
Qed.

(** one set from a settled state, then enforce *)
Lemma after_set s ps i : well_formed s -> settled s -> (i < List.length (joints s))%nat ->
  at_joint (on_enforce (on_set s ps)) i =
   if existsb (fun k => snd (check_update (nth k (joints s) "") ps (at_joint s k))) (seq 0 (List.length (joints s)))
   then fst (check_update (nth i (joints s) "") ps (at_joint s i)) else at_joint s i.
Proof.
  intros W S L. unfold on_set.
  set (res := map _ (combine (joints s) (in_use s))).
  assert (LR : List.length res = List.length (joints s)) by (unfold res; rewrite map_length, combine_length; destruct W; lia).
  assert (E : existsb snd res = existsb (fun k => snd (check_update (nth k (joints s) "") ps (at_joint s k))) (seq 0 (List.length (joints s)))).
  { apply eq_true_iff_eq. rewrite !existsb_exists. split.
    - intros (x & I & X). apply (In_nth _ _ (unset, false)) in I. destruct I as (k & K & E). exists k. rewrite LR in K. split; [apply in_seq; lia|].
      rewrite <- (nth_res s ps k W K). fold res. rewrite E. exact X.
    - intros (k & K & X). apply in_seq in K. exists (nth k res (unset, false)). split; [apply nth_In; lia|].
      unfold res. rewrite (nth_res s ps k W) by lia. exact X. }
  rewrite E. destruct (existsb _ (seq 0 _)).
  - unfold at_joint. cbn. rewrite (nth_fst res i unset false). unfold res. rewrite (nth_res s ps i W L). reflexivity.
  - unfold at_joint. cbn. rewrite S. reflexivity.
Qed.

Lemma same_refl l : same l l. Proof. split; reflexivity. Qed.

(** C68 number *)
Theorem set_number s i f x : well_formed s -> settled s -> (i < List.length (joints s))%nat ->
  let j := nth i (joints s) "" in
  let s' := on_enforce (on_set s [(("joint_limits." ++ j ++ "." ++ nf_name f)%string, VDouble x)]) in
  (num (at_joint s' i) f = x \/ (feq (num (at_joint s i) f) x = true /\ num (at_joint s' i) f = num (at_joint s i) f)) /\
  same_but_num f (at_joint s' i) (at_joint s i) /\
  (forall k, (k < List.length (joints s))%nat -> nth k (joints s) "" <> j -> same (at_joint s' k) (at_joint s k)).
Proof.
  intros W S L j s'. change (("joint_limits." ++ j ++ "." ++ nf_name f)%string) with (pname j (nf_name f)) in s'.
  assert (O : forall k, (k < List.length (joints s))%nat -> nth k (joints s) "" <> j -> same (at_joint s' k) (at_joint s k)).
  { intros k K N. unfold s'. rewrite (after_set s _ k W S K). rewrite update_other; [destruct (existsb _ _); apply same_refl|].
    intros p [<-|[]]. apply other_joint; [exact N|apply nf_dot]. }
  split; [|split; [|exact O]].
  - unfold s'. rewrite (after_set s _ i W S L). fold j. rewrite update_num. cbn [fst].
    destruct (existsb _ _) eqn:E.
    + left. rewrite num_set. destruct f; reflexivity.
    + right. split; [|reflexivity]. destruct (feq (num (at_joint s i) f) x) eqn:Q; [reflexivity|].
      assert (X : existsb (fun k => snd (check_update (nth k (joints s) "") [(pname j (nf_name f), VDouble x)] (at_joint s k))) (seq 0 (List.length (joints s))) = true).
      { apply existsb_exists. exists i. split; [apply in_seq; lia|]. fold j. rewrite update_num, Q. reflexivity. }
      congruence.
  - unfold s'. rewrite (after_set s _ i W S L). fold j. rewrite update_num. cbn [fst]. destruct (existsb _ _); [|split; reflexivity].
    split; [|reflexivity]. intros g N. rewrite num_set. destruct (nf_eqb g f) eqn:E; [apply nf_eqb_eq in E; congruence|reflexivity].
Qed.

(** flags *)
Lemma flag_true j f l : usable l f -> exists l', check_update j [(pname j (bf_name f), VBool true)] l = (l', true) /\ flag l' f = true /\ same_but_flag f l' l.
Proof.
  intro U. rewrite update_flag. unfold flag_step. cbn [fst snd]. rewrite find_bf. exists (set_flag l f true).
  assert (SB : same_but_flag f (set_flag l f true) l).
  { split; [reflexivity|]. intros g N. cbn. destruct (bf_eqb g f) eqn:E; [apply bf_eqb_eq in E; congruence|reflexivity]. }
  destruct f; cbn in *; try (destruct U as (-> & -> & ->); cbn; auto); try (rewrite U; cbn; auto).
Qed.
Lemma flag_false j f l : f <> HasP -> exists l', check_update j [(pname j (bf_name f), VBool false)] l = (l', true) /\ flag l' f = false /\ same_but_flag f l' l.
Proof.
  intro U. rewrite update_flag. unfold flag_step. cbn [fst snd]. rewrite find_bf. exists (set_flag l f false).
  assert (SB : same_but_flag f (set_flag l f false) l).
  { split; [reflexivity|]. intros g N. cbn. destruct (bf_eqb g f) eqn:E; [apply bf_eqb_eq in E; congruence|reflexivity]. }
  destruct f; cbn in *; auto. congruence.
Qed.
Lemma flag_refused j f l : ~ usable l f -> snd (check_update j [(pname j (bf_name f), VBool true)] l) = false.
Proof.
  intro U. rewrite update_flag. unfold flag_step. cbn [fst snd]. rewrite find_bf.
  destruct f; cbn in U |- *; unfold LimitsModel.isnan, LimitsModel.fle in *;
   repeat match goal with |- context[if ?b then _ else _] => destruct b eqn:?; cbn end; try reflexivity; exfalso; apply U; auto;
   try (match goal with H : orb _ _ = false |- _ => apply orb_false_iff in H; destruct H end; auto).
Qed.

Theorem set_flag_ok s i f b : well_formed s -> settled s -> (i < List.length (joints s))%nat ->
  (b = true -> usable (at_joint s i) f) -> (b = false -> f <> HasP) ->
  let j := nth i (joints s) "" in
  let s' := on_enforce (on_set s [(("joint_limits." ++ j ++ "." ++ bf_name f)%string, VBool b)]) in
  flag (at_joint s' i) f = b /\ same_but_flag f (at_joint s' i) (at_joint s i) /\
  (forall k, (k < List.length (joints s))%nat -> nth k (joints s) "" <> j -> same (at_joint s' k) (at_joint s k)).
Proof.
  intros W S L T N j s'. change (("joint_limits." ++ j ++ "." ++ bf_name f)%string) with (pname j (bf_name f)) in s'.
  assert (O : forall k, (k < List.length (joints s))%nat -> nth k (joints s) "" <> j -> same (at_joint s' k) (at_joint s k)).
  { intros k K M. unfold s'. rewrite (after_set s _ k W S K). rewrite update_other; [destruct (existsb _ _); apply same_refl|].
    intros p [<-|[]]. apply other_joint; [exact M|apply bf_dot]. }
  assert (G : exists l', check_update j [(pname j (bf_name f), VBool b)] (at_joint s i) = (l', true) /\ flag l' f = b /\ same_but_flag f l' (at_joint s i)).
  { destruct b; [apply flag_true; auto|apply flag_false; auto]. }
  destruct G as (l' & E & A & B).
  unfold s' at 1 2. rewrite (after_set s _ i W S L). fold j. rewrite E. cbn [fst].
  assert (X : existsb (fun k => snd (check_update (nth k (joints s) "") [(pname j (bf_name f), VBool b)] (at_joint s k))) (seq 0 (List.length (joints s))) = true).
  { apply existsb_exists. exists i. split; [apply in_seq; lia|]. fold j. rewrite E. reflexivity. }
  rewrite X. auto.
Qed.
Theorem set_flag_refused s i f : well_formed s -> settled s -> (i < List.length (joints s))%nat -> NoDup (joints s) ->
  ~ usable (at_joint s i) f ->
  let j := nth i (joints s) "" in
  let s' := on_enforce (on_set s [(("joint_limits." ++ j ++ "." ++ bf_name f)%string, VBool true)]) in
  forall k, (k < List.length (joints s))%nat -> same (at_joint s' k) (at_joint s k).
Proof.
  intros W S L ND U j s' k K. change (("joint_limits." ++ j ++ "." ++ bf_name f)%string) with (pname j (bf_name f)) in s'.
  unfold s'. rewrite (after_set s _ k W S K).
  destruct (existsb _ _) eqn:X; [|apply same_refl]. exfalso. apply existsb_exists in X. destruct X as (m & M & X). apply in_seq in M.
  destruct (PeanoNat.Nat.eq_dec m i) as [->|N].
  - fold j in X. rewrite flag_refused in X by exact U. discriminate.
  - rewrite update_other in X; [discriminate|]. intros p [<-|[]]. apply other_joint; [|apply bf_dot].
    intro Q. apply N. apply (proj1 (NoDup_nth (joints s) "") ND); auto; lia.
Qed.

(** a batch of parameters for other joints, or of unrelated ones *)
Theorem set_unrelated s ps i : well_formed s -> settled s -> (i < List.length (joints s))%nat ->
  (forall p, In p ps -> ~ concerns (nth i (joints s) "") p) -> same (at_joint (on_enforce (on_set s ps)) i) (at_joint s i).
Proof.
  intros W S L H. rewrite (after_set s ps i W S L). rewrite update_other by exact H. destruct (existsb _ _); apply same_refl.
Qed.
Theorem run_unrelated : forall os s i, well_formed s -> settled s -> (i < List.length (joints s))%nat ->
  (forall ps p, In (Set_ ps) os -> In p ps -> ~ concerns (nth i (joints s) "") p) ->
  same (at_joint (run s os) i) (at_joint s i) .
Proof.
  assert (G : forall os s i l, well_formed s -> (i < List.length (joints s))%nat -> at_joint s i = l -> nth i (buffered s) unset = l ->
    (forall ps p, In (Set_ ps) os -> In p ps -> ~ concerns (nth i (joints s) "") p) -> at_joint (run s os) i = l).
  { induction os as [|o os IH]; intros s i l W L A B H; [exact A|]. cbn. apply IH.
    - destruct o as [ps|]; [apply set_wf, W|]. destruct W. split; assumption.
    - destruct o as [ps|]; cbn; [rewrite set_joints|]; exact L.
    - destruct o as [ps|]; cbn; [unfold at_joint; rewrite set_in_use; exact A|exact B].
    - destruct o as [ps|]; cbn; [|exact B]. unfold on_set. destruct (existsb _ _); [|exact B]. cbn.
      rewrite (nth_fst _ i unset false), (nth_res s ps i W L), update_other; [exact A|]. intros p I. apply (H ps); [left; reflexivity|exact I].
    - intros ps p I P. destruct o as [ps'|]; cbn; [rewrite set_joints|]; apply (H ps); auto; right; exact I. }
  intros os s i W S L H. rewrite (G os s i (at_joint s i) W L eq_refl); [apply same_refl| |exact H]. unfold settled in S. rewrite S. reflexivity.
Qed.

