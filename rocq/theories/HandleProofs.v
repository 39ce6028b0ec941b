(** HandleProofs.v -- proofs about handles (C42, C43). *)
From Coq Require Import ZArith Bool List Arith Lia.
From Verif Require Import LimitsModel HandleModel HandleSpec.
Import ListNotations.

(** a handle in good order *)
Definition good (i : nat) (h : hstate) : Prop :=
  match hv h with
  | None => ht h = DOUBLE /\ (forall k, hp h <> Inside k)
  | Some (VDouble _) => ht h = DOUBLE /\ hp h = Inside i
  | Some v => value_ok v /\ ht h = type_of v /\ hp h = Null end.
Definition wf (w : world) : Prop := forall i h, objs w i = Some h -> good i h.

Lemma obj_set w i h j : objs (set_obj w i h) j = if Nat.eqb j i then h else objs w j.
Proof. reflexivity. Qed.
Lemma obj_ext w a x j : objs (set_ext w a x) j = objs w j. Proof. reflexivity. Qed.
Lemma wf_set w i h : wf w -> (forall o, h = Some o -> good i o) -> wf (set_obj w i h).
Proof. intros W H j o. rewrite obj_set. destruct (Nat.eqb_spec j i) as [->|N]; [intros E; apply H; exact E|apply W]. Qed.
Lemma good_other i j h : good i h -> ~ (exists x, hv h = Some (VDouble x)) -> good j h.
Proof. unfold good. destruct (hv h) as [[x|x|b|t z]|]; intros H N; try exact H. exfalso. apply N. eauto. Qed.
Lemma eqb_type a b : dtype_eqb a b = true <-> a = b.
Proof. destruct a, b; cbn; split; congruence. Qed.

Ltac dobj E := match goal with |- context [objs ?w ?i] => destruct (objs w i) as [?h|] eqn:E end.
Lemma step_wf w o r w' : wf w -> calm w o -> step o w = Ok r w' -> wf w'.
Proof.
  intros W C H. destruct o as [i v|i a|i j|i j|i j|i j|i|i T l|i v l|a x]; cbn [step] in H.
  - destruct (objs w i); [discriminate|]. injection H as <- <-. apply wf_set; [exact W|]. intros o E. injection E as <-. unfold good. cbn [hv ht hp].
    destruct v; cbn in *; auto.
  - destruct (objs w i); [discriminate|]. injection H as <- <-. apply wf_set; [exact W|]. intros o E. injection E as <-. unfold good. cbn [hv ht hp].
    split; [reflexivity|]. destruct a; discriminate.
  - destruct (objs w i); [discriminate|]. destruct (objs w j) as [o|] eqn:J; [|discriminate]. injection H as <- <-. apply wf_set; [exact W|]. intros o' E. injection E as <-.
    specialize (W j o J). unfold good, copied in *. cbn [hv ht hp]. destruct (hv o) as [[x|x|b|t z]|]; cbn [inner]; tauto.
  - destruct (objs w i); [|discriminate]. destruct (objs w j) as [o|] eqn:J; [|discriminate]. destruct (Nat.eqb i j); injection H as <- <-; [exact W|]. apply wf_set; [exact W|]. intros o' E. injection E as <-.
    specialize (W j o J). unfold good, copied in *. cbn [hv ht hp]. destruct (hv o) as [[x|x|b|t z]|]; cbn [inner]; tauto.
  - destruct (objs w i); [discriminate|]. destruct (objs w j) as [o|] eqn:J; [|discriminate]. injection H as <- <-. apply wf_set; [apply wf_set; [exact W|]|].
    + intros o' E. injection E as <-. apply (good_other j); [apply W; exact J|]. intros (x & X). apply C. exists o, x. auto.
    + intros o' E. injection E as <-. unfold good. cbn. split; [reflexivity|discriminate].
  - destruct (objs w i) as [h|] eqn:Hi; [|discriminate]. destruct (objs w j) as [o|] eqn:J; [|discriminate]. destruct (Nat.eqb i j); [discriminate|]. injection H as <- <-.
    destruct C as [C1 C2]. apply wf_set; [apply wf_set; [exact W|]|]; intros o' E; injection E as <-.
    + apply (good_other j); [apply W; exact J|]. intros (x & X). apply C2. exists o, x. auto.
    + apply (good_other i); [apply W; exact Hi|]. intros (x & X). apply C1. exists h, x. auto.
  - destruct (objs w i); [|discriminate]. injection H as <- <-. apply wf_set; [exact W|]. discriminate.
  - assert (E : w' = w); [|subst; exact W]. unfold get in H. destruct (objs w i) as [h|]; [|discriminate]. destruct l; cbn [negb] in H; [|congruence].
    repeat match type of H with context [match ?x with _ => _ end] => destruct x end; congruence.
  - unfold set in H. destruct (objs w i) as [h|] eqn:Hi; [|discriminate]. destruct l; cbn [negb] in H; [|injection H as <- <-; exact W].
    pose proof (W i h Hi) as G. destruct v as [x|x|b|t z].
    + assert (S : exists p, hp h = p /\ match store_ptr w p x with Some w1 => w1 = w' | None => False end).
      { exists (hp h). split; [reflexivity|]. destruct (hp h); [discriminate| |]; destruct (store_ptr w _ x); try discriminate; injection H as _ <-; reflexivity. }
      destruct S as (p & P & S). destruct p as [|a|k]; [destruct S| |]; cbn [store_ptr] in S.
      * subst w'. intros j o J. apply W. exact J.
      * destruct (objs w k) as [o|] eqn:K; [|destruct S]. destruct (hv o) as [[y|?|?|? ?]|] eqn:V; try destruct S. apply wf_set; [exact W|]. intros o' E. injection E as <-.
        specialize (W k o K). unfold good in *. rewrite V in W. exact W.
    + destruct (hv h) as [u|] eqn:V; [|discriminate]. destruct (dtype_eqb (type_of u) _) eqn:E; [|discriminate]. injection H as <- <-. apply eqb_type in E. apply wf_set; [exact W|].
      intros o' Q. injection Q as <-. unfold good in *. cbn [hv ht hp]. rewrite V in G. destruct u; cbn in *; try congruence; try tauto; (split; [exact I|]; split; [congruence|tauto]).
    + destruct (hv h) as [u|] eqn:V; [|discriminate]. destruct (dtype_eqb (type_of u) _) eqn:E; [|discriminate]. injection H as <- <-. apply eqb_type in E. apply wf_set; [exact W|].
      intros o' Q. injection Q as <-. unfold good in *. cbn [hv ht hp]. rewrite V in G. destruct u; cbn in *; try congruence; try tauto; (split; [exact I|]; split; [congruence|tauto]).
    + destruct (hv h) as [u|] eqn:V; [|discriminate]. destruct (dtype_eqb (type_of u) _) eqn:E; [|discriminate]. injection H as <- <-. apply eqb_type in E. apply wf_set; [exact W|].
      intros o' Q. injection Q as <-. unfold good in *. cbn [hv ht hp]. rewrite V in G. destruct u as [y|y|y|t' z']; cbn in C, E; try (exfalso; subst t; tauto).
      split; [exact C|]. cbn in G |- *. destruct G as (_ & G1 & G2). split; congruence.
  - injection H as <- <-. intros j o J. apply W. exact J.
Qed.
Lemma reach_wf w : reachable w -> wf w.
Proof. induction 1; [intros i h E; discriminate|eapply step_wf; eassumption]. Qed.

(** what a handle in good order holds *)
Definition holds (w : world) (h : hstate) (v : value) : Prop :=
  match hv h with Some u => u = v | None => match hp h with Ext a => v = VDouble (ext w a) | _ => False end end.
Lemma reads_iff w i v : wf w -> reads w i v <-> exists h, objs w i = Some h /\ holds w h v.
Proof.
  intros W. unfold reads, has_type. cbn [step]. unfold get. split.
  - intros [(h & Hi & Ht) H]. rewrite Hi in H. cbn [negb] in H. pose proof (W i h Hi) as G. exists h. split; [exact Hi|]. unfold holds, good in *.
    destruct (hv h) as [u|] eqn:V.
    + destruct u as [y|y|b|t z].
      * destruct G as [G1 G2]. rewrite G1, G2 in *. rewrite <- Ht in H. cbn [load_ptr] in H. rewrite Hi, V in H. injection H as <-. reflexivity.
      * destruct G as (_ & G1 & G2). rewrite G1 in Ht. rewrite <- Ht in H. cbn in H. injection H as <-. reflexivity.
      * destruct G as (_ & G1 & G2). rewrite G1 in Ht. rewrite <- Ht in H. cbn in H. injection H as <-. reflexivity.
      * destruct G as (G0 & G1 & G2). rewrite G1 in Ht. rewrite <- Ht in H. cbn in H. destruct t; cbn in G0; try (exfalso; tauto); cbn in H; injection H as <-; reflexivity.
    + destruct G as [G1 G2]. rewrite G1 in *. rewrite <- Ht in H. destruct (hp h); [discriminate| |exfalso; eapply G2; reflexivity]. cbn in H. injection H as <-. reflexivity.
  - intros (h & Hi & H). pose proof (W i h Hi) as G. unfold holds, good in *. rewrite Hi. cbn [negb]. destruct (hv h) as [u|] eqn:V.
    + subst u. split; [exists h; split; [reflexivity|destruct v; tauto]|]. destruct v as [y|y|b|t z]; cbn [type_of].
      * destruct G as [G1 G2]. rewrite G1, G2. cbn [load_ptr]. rewrite Hi, V. reflexivity.
      * reflexivity.
      * reflexivity.
      * destruct G as (G0 & G1 & G2). destruct t; cbn in G0; try (exfalso; tauto); reflexivity.
    + destruct G as [G1 G2]. destruct (hp h) eqn:P; [destruct H| |exfalso; eapply G2; reflexivity]. subst v. split; [exists h; auto|]. cbn [type_of]. rewrite G1. reflexivity.
Qed.
Lemma set_cases w i v r w' : step (Set_ i v true) w = Ok r w' -> exists h, objs w i = Some h /\ r = RBool true /\
  ((exists x, v = VDouble x /\ hp h <> Null /\ store_ptr w (hp h) x = Some w') \/
   ((forall x, v <> VDouble x) /\ exists u, hv h = Some u /\ type_of u = type_of v /\ w' = set_obj w i (Some {| hv := Some v; ht := ht h; hp := hp h |}))).
Proof.
  cbn [step]. unfold set. destruct (objs w i) as [h|]; [|discriminate]. cbn [negb]. intros H. exists h. split; [reflexivity|].
  destruct v as [x|x|b|t z].
  - destruct (hp h) eqn:P; [discriminate| |]; destruct (store_ptr w _ x) eqn:S; try discriminate; injection H as <- <-; split; try reflexivity; left; exists x; rewrite S; split; try reflexivity; split; try discriminate; reflexivity.
  - destruct (hv h) as [u|]; [|discriminate]. destruct (dtype_eqb _ _) eqn:E; [|discriminate]. injection H as <- <-. split; [reflexivity|]. right. split; [discriminate|]. exists u. apply eqb_type in E. auto.
  - destruct (hv h) as [u|]; [|discriminate]. destruct (dtype_eqb _ _) eqn:E; [|discriminate]. injection H as <- <-. split; [reflexivity|]. right. split; [discriminate|]. exists u. apply eqb_type in E. auto.
  - destruct (hv h) as [u|]; [|discriminate]. destruct (dtype_eqb _ _) eqn:E; [|discriminate]. injection H as <- <-. split; [reflexivity|]. right. split; [discriminate|]. exists u. apply eqb_type in E. auto.
Qed.
Lemma set_self w i h v r w' : wf w -> value_ok v -> objs w i = Some h -> step (Set_ i v true) w = Ok r w' ->
  r = RBool true /\ exists h', objs w' i = Some h' /\ ht h' = ht h /\ hp h' = hp h /\ holds w' h' v /\
    (forall j, j <> i -> objs w' j = objs w j) /\ (forall b, ext w' b = ext w b \/ hp h = Ext b).
Proof.
  intros W OK Hi H. destruct (set_cases _ _ _ _ _ H) as (h0 & E & R & D). rewrite Hi in E. injection E as <-. split; [exact R|]. pose proof (W i h Hi) as G. unfold good in G.
  destruct D as [(x & -> & N & S)|(N & u & V & T & ->)].
  - destruct (hp h) as [|a|k] eqn:P; [congruence| |].
    + cbn in S. injection S as <-. exists h. repeat split; auto.
      * unfold holds. destruct (hv h) as [[y|y|b|t z]|]; try (destruct G as (? & ? & ?); congruence); [destruct G; congruence|]. rewrite P. cbn. rewrite Nat.eqb_refl. reflexivity.
      * intros b. cbn. destruct (Nat.eqb_spec b a) as [->|]; auto.
    + assert (k = i). { destruct (hv h) as [[y|y|b|t z]|]; try (destruct G as (? & ? & ?); congruence); destruct G as [_ G]; [congruence|exfalso; eapply G; reflexivity]. }
      subst k. cbn in S. rewrite Hi in S. destruct (hv h) as [[y|y|b|t z]|] eqn:V; try discriminate. injection S as <-. eexists. rewrite obj_set, Nat.eqb_refl. split; [reflexivity|]. repeat split; auto.
      intros j Nj. rewrite obj_set. destruct (Nat.eqb_spec j i); [congruence|reflexivity].
  - eexists. rewrite obj_set, Nat.eqb_refl. split; [reflexivity|]. repeat split; auto. intros j Nj. rewrite obj_set. destruct (Nat.eqb_spec j i); [congruence|reflexivity].
Qed.

Lemma main_read_back w i v r w' : reachable w -> value_ok v -> step (Set_ i v true) w = Ok r w' -> r = RBool true /\ reads w' i v.
Proof.
  intros Rw OK H. pose proof (reach_wf w Rw) as W. assert (X : exists h, objs w i = Some h) by (destruct (set_cases _ _ _ _ _ H) as (h & E & _); eauto). destruct X as (h & Hi).
  destruct (set_self w i h v r w' W OK Hi H) as (R & h' & H' & _ & _ & Ho & _). split; [exact R|]. apply reads_iff; [apply (step_wf w (Set_ i v true) r); assumption|]. eauto.
Qed.
Lemma main_set_works w i v : reachable w -> value_ok v -> (exists u, reads w i u) -> has_type w i (type_of v) -> exists w', step (Set_ i v true) w = Ok (RBool true) w'.
Proof.
  intros Rw OK (u & U) (h & Hi & Ht). pose proof (reach_wf w Rw) as W. apply reads_iff in U; [|exact W]. destruct U as (h0 & E & U). rewrite Hi in E. injection E as <-.
  pose proof (W i h Hi) as G. cbn [step]. unfold set. rewrite Hi. cbn [negb]. unfold holds, good in *. destruct (hv h) as [u'|] eqn:V.
  - subst u'. destruct u as [y|y|b|t z].
    + destruct G as [G1 G2]. rewrite G1 in Ht. destruct v as [x|x|b|t z]; try discriminate; [|destruct t; try discriminate; exfalso; cbn in OK; tauto]. rewrite G2. cbn [store_ptr]. rewrite Hi, V. eauto.
    + destruct G as (_ & G1 & G2). rewrite G1 in Ht. destruct v as [x|x|b|t z]; try discriminate; cbn in *; subst; eauto; cbn; eauto.
    + destruct G as (_ & G1 & G2). rewrite G1 in Ht. destruct v as [x|x|b'|t z]; try discriminate; cbn in *; subst; eauto; cbn; eauto.
    + destruct G as (G0 & G1 & G2). rewrite G1 in Ht. destruct v as [x|x|b'|t' z']; cbn in *; subst; try (exfalso; tauto). rewrite (proj2 (eqb_type _ _) eq_refl). eauto.
  - destruct G as [G1 G2]. rewrite G1 in Ht. destruct (hp h) eqn:P; [destruct U| |destruct U]. destruct v as [x|x|b|t z]; try discriminate; [cbn; eauto|]. cbn in Ht. subst t. exfalso. cbn in OK. tauto.
Qed.
Lemma get_same w i T l r w' : step (Get i T l) w = Ok r w' -> w' = w.
Proof.
  cbn [step]. unfold get. intros H. destruct (objs w i) as [h|]; [|discriminate]. destruct l; cbn [negb] in H; [|congruence].
  repeat match type of H with context [match ?x with _ => _ end] => destruct x end; congruence.
Qed.
(** everything else leaves handle i as it is *)
Lemma untouched w o r w' i h : wf w -> calm w o -> step o w = Ok r w' -> ~ touches w i o -> objs w i = Some h ->
  objs w' i = Some h /\ forall a, hp h = Ext a -> ext w' a = ext w a.
Proof.
  intros W C H N Hi. destruct o as [k v|k a|k j|k j|k j|k j|k|k T l|k v l|a x]; cbn [touches] in N; cbn [step] in H.
  - destruct (objs w k) eqn:K; [discriminate|]. injection H as <- <-. rewrite obj_set. destruct (Nat.eqb_spec i k); [congruence|auto].
  - destruct (objs w k) eqn:K; [discriminate|]. injection H as <- <-. rewrite obj_set. destruct (Nat.eqb_spec i k); [congruence|auto].
  - destruct (objs w k) eqn:K; [discriminate|]. destruct (objs w j); [|discriminate]. injection H as <- <-. rewrite obj_set. destruct (Nat.eqb_spec i k); [congruence|auto].
  - destruct (objs w k) eqn:K; [|discriminate]. destruct (objs w j); [|discriminate]. destruct (Nat.eqb k j); injection H as <- <-; [auto|]. rewrite obj_set. destruct (Nat.eqb_spec i k); [congruence|auto].
  - destruct (objs w k) eqn:K; [discriminate|]. destruct (objs w j); [|discriminate]. injection H as <- <-. rewrite !obj_set. destruct (Nat.eqb_spec i j); [congruence|]. destruct (Nat.eqb_spec i k); [congruence|auto].
  - destruct (objs w k) eqn:K; [|discriminate]. destruct (objs w j); [|discriminate]. destruct (Nat.eqb k j); [discriminate|]. injection H as <- <-. rewrite !obj_set.
    destruct (Nat.eqb_spec i j) as [->|]; [exfalso; tauto|]. destruct (Nat.eqb_spec i k) as [->|]; [exfalso; tauto|auto].
  - destruct (objs w k) eqn:K; [|discriminate]. injection H as <- <-. rewrite obj_set. destruct (Nat.eqb_spec i k); [congruence|auto].
  - assert (E : w' = w) by exact (get_same w k T l r w' H). subst w'. auto.
  - destruct l.
    + assert (X : exists h, objs w k = Some h) by (destruct (set_cases w k v r w' H) as (h' & E & _); eauto). destruct X as (hk & Hk).
      destruct (set_self w k hk v r w' W C Hk H) as (_ & h' & _ & _ & _ & _ & O & E).
      assert (Nk : i <> k) by (intros ->; apply N; auto). rewrite (O i Nk). split; [exact Hi|]. intros a P. destruct (E a) as [Q|Q]; [exact Q|].
      exfalso. apply N. right. exists a. split; [exists h; auto|exists hk; auto].
    + unfold set in H. destruct (objs w k); [|discriminate]. cbn in H. injection H as <- <-. auto.
  - injection H as <- <-. cbn. split; [exact Hi|]. intros b P. destruct (Nat.eqb_spec b a) as [->|]; [|reflexivity]. exfalso. apply N. exists h. auto.
Qed.
Lemma holds_same w w' h v : (forall a, hp h = Ext a -> ext w' a = ext w a) -> holds w h v <-> holds w' h v.
Proof. intros E. unfold holds. destruct (hv h); [tauto|]. destruct (hp h); try tauto. rewrite (E _ eq_refl). tauto. Qed.
Lemma main_kept w o r w' i v : reachable w -> calm w o -> step o w = Ok r w' -> ~ touches w i o -> reads w i v -> reads w' i v.
Proof.
  intros Rw C H N Rd. pose proof (reach_wf w Rw) as W. pose proof (step_wf _ _ _ _ W C H) as W'. apply reads_iff in Rd; [|exact W]. destruct Rd as (h & Hi & Ho).
  destruct (untouched w o r w' i h W C H N Hi) as [A B]. apply reads_iff; [exact W'|]. exists h. split; [exact A|]. apply (holds_same w w' h v B). exact Ho.
Qed.
Lemma main_type w o r w' i t : reachable w -> calm w o -> step o w = Ok r w' -> (forall j, o <> CopyAssign i j /\ o <> MoveAssign i j /\ o <> MoveAssign j i /\ o <> MoveNew j i) -> o <> Destroy i ->
  has_type w i t -> has_type w' i t.
Proof.
  intros Rw C H N1 N2 (h & Hi & Ht). pose proof (reach_wf w Rw) as W.
  assert (D : touches w i o \/ ~ touches w i o).
  { destruct o as [k v|k a|k j|k j|k j|k j|k|k T l|k v l|a x]; cbn [touches]; try tauto; try (destruct (Nat.eq_dec k i); tauto).
    - destruct (Nat.eq_dec j i); tauto.
    - destruct (Nat.eq_dec k i), (Nat.eq_dec j i); tauto.
    - destruct (Nat.eq_dec k i); [tauto|]. destruct (objs w k) as [hk|] eqn:Hk; [|right; intros [?|(a & _ & h' & E & _)]; congruence].
      destruct (hp h) as [|a|a] eqn:P; try (right; intros [?|(b & (h' & E & Q) & _)]; congruence). destruct (hp hk) as [|b|b] eqn:Pk; try (right; intros [?|(c & _ & (h' & E & Q))]; congruence).
      destruct (Nat.eq_dec a b) as [->|Na]; [left; right; exists b; split; [exists h; auto|exists hk; auto]|]. right. intros [?|(c & (h' & E & Q) & (h'' & E' & Q'))]; congruence.
    - destruct (hp h) as [|b|b] eqn:P; try (right; intros (h' & E & Q); congruence). destruct (Nat.eq_dec a b) as [->|Na]; [left; exists h; auto|right; intros (h' & E & Q); congruence]. }
  destruct D as [D|D].
  - destruct o as [k v|k a|k j|k j|k j|k j|k|k T l|k v l|a x]; cbn [touches] in D; try tauto.
    + subst k. destruct (N1 j) as (A & _). congruence.
    + subst j. destruct (N1 k) as (_ & _ & _ & A). congruence.
    + destruct D as [->| ->]; [destruct (N1 j) as (_ & A & _); congruence|destruct (N1 k) as (_ & _ & A & _); congruence].
    + congruence.
    + destruct l; [|cbn [step] in H; unfold set in H; destruct (objs w k); [|discriminate]; cbn in H; injection H as _ <-; exists h; auto].
      assert (X : exists hk, objs w k = Some hk) by (destruct (set_cases w k v r w' H) as (h' & E & _); eauto). destruct X as (hk & Hk).
      destruct (set_self w k hk v r w' W C Hk H) as (_ & h' & H1 & H2 & _ & _ & O & E). destruct (Nat.eq_dec i k) as [->|Nk].
      * exists h'. split; [exact H1|]. congruence.
      * exists h. rewrite (O i Nk). auto.
    + cbn [step] in H. injection H as _ <-. exists h. auto.
  - destruct (untouched w o r w' i h W C H D Hi) as [A _]. exists h. auto.
Qed.
(** accesses of another type *)
Lemma main_set_refused w i v t : reachable w -> value_ok v -> has_type w i t -> t <> type_of v -> step (Set_ i v true) w = Throws.
Proof.
  intros Rw OK (h & Hi & Ht) N. pose proof (reach_wf w Rw i h Hi) as G. cbn [step]. unfold set. rewrite Hi. cbn [negb]. unfold good in G. destruct v as [x|x|b|u z].
  - destruct (hv h) as [[y|y|c|u z]|]; try (destruct G as (G0 & G1 & G2); rewrite G2; reflexivity); cbn in N; destruct G; congruence.
  - destruct (hv h) as [v|]; [|reflexivity]. destruct (dtype_eqb (type_of v) _) eqn:E; [|reflexivity]. apply eqb_type in E. exfalso. apply N. cbn in *. destruct v; cbn in *; try discriminate; destruct G as (? & ? & ?); congruence.
  - destruct (hv h) as [v|]; [|reflexivity]. destruct (dtype_eqb (type_of v) _) eqn:E; [|reflexivity]. apply eqb_type in E. exfalso. apply N. cbn in *. destruct v; cbn in *; try discriminate; destruct G as (? & ? & ?); congruence.
  - destruct (hv h) as [v|]; [|reflexivity]. destruct (dtype_eqb (type_of v) _) eqn:E; [|reflexivity]. apply eqb_type in E. exfalso. apply N. cbn in *. destruct v; cbn in *; try (destruct G as (? & ? & ?); congruence). subst u. tauto.
Qed.
Lemma main_get_refused w i T t : reachable w -> has_type w i t -> t <> T -> (t <> BOOL \/ T <> DOUBLE) -> step (Get i T true) w = Throws.
Proof.
  intros Rw (h & Hi & Ht) N B. pose proof (reach_wf w Rw i h Hi) as G. cbn [step]. unfold get. rewrite Hi. cbn [negb]. unfold good in G.
  assert (V : forall v, hv h = Some v -> type_of v = t). { intros v V. rewrite V in G. destruct v; cbn in *; destruct G as (? & ?); try (destruct H0); congruence. }
  destruct T; [subst t; destruct (ht h); try reflexivity; exfalso; destruct B; congruence| | | | | | | |];
    (destruct (hv h) as [v|]; [|reflexivity]; rewrite (V v eq_refl); destruct (dtype_eqb t _) eqn:E; [apply eqb_type in E; congruence|reflexivity]).
Qed.
Lemma main_get_bool w i : reachable w -> has_type w i BOOL -> exists b, reads w i (VBool b) /\ step (Get i DOUBLE true) w = Ok (RVal (Some (VDouble (if b then of_Z 1 else fzero)))) w.
Proof.
  intros Rw (h & Hi & Ht). pose proof (reach_wf w Rw i h Hi) as G. unfold good in G. rewrite Ht in G.
  destruct (hv h) as [[y|y|c|u z]|] eqn:V; try (destruct G as (? & ? & ?); discriminate); try (destruct G; discriminate).
  - exists c. split; [apply reads_iff; [apply reach_wf; exact Rw|]; exists h; unfold holds; rewrite V; auto|]. cbn [step]. unfold get. rewrite Hi, Ht, V. reflexivity.
  - destruct G as (G0 & G1 & _). cbn in G0, G1. subst. exfalso. tauto.
Qed.
Lemma main_locked w i v T : live w i -> step (Set_ i v false) w = Ok (RBool false) w /\ step (Get i T false) w = Ok (RVal None) w.
Proof. unfold live. cbn [step]. unfold set, get. destruct (objs w i); [auto|congruence]. Qed.
(** no undefined behaviour *)
Lemma main_defined w o : reachable w -> calm w o -> proper w o -> step o w <> UB.
Proof.
  intros Rw C P. pose proof (reach_wf w Rw) as W. destruct o as [k v|k a|k j|k j|k j|k j|k|k T l|k v l|a x]; cbn [proper] in P; unfold live in P; cbn [step].
  - destruct (objs w k); [exfalso; apply P|]; discriminate.
  - destruct (objs w k); [exfalso; apply P|]; discriminate.
  - destruct P as [P1 P2]. destruct (objs w k); [exfalso; apply P1; discriminate|]. destruct (objs w j); congruence.
  - destruct P as [P1 P2]. destruct (objs w k); [|congruence]. destruct (objs w j); [|congruence]. destruct (Nat.eqb k j); discriminate.
  - destruct P as [P1 P2]. destruct (objs w k); [exfalso; apply P1; discriminate|]. destruct (objs w j); congruence.
  - destruct P as (P1 & P2 & P3). destruct (objs w k); [|congruence]. destruct (objs w j); [|congruence]. destruct (Nat.eqb_spec k j); congruence.
  - destruct (objs w k); congruence.
  - unfold get. destruct (objs w k) as [h|] eqn:Hi; [|congruence]. pose proof (W k h Hi) as G. unfold good in G. destruct l; cbn [negb]; [|discriminate].
    destruct T; try (destruct (hv h) as [v|]; [destruct (dtype_eqb _ _)|]; discriminate).
    destruct (ht h) eqn:Ht; try discriminate; [|destruct (hv h) as [[]|]; discriminate].
    destruct (hp h) as [|a|q] eqn:Pp; [discriminate|discriminate|]. destruct (hv h) as [[y|y|c|u z]|] eqn:V; try (destruct G as (? & ? & ?); congruence).
    + destruct G as [_ G]. injection G as ->. cbn. rewrite Hi, V. discriminate.
    + destruct G as [_ G]. exfalso. eapply G. reflexivity.
  - unfold set. destruct (objs w k) as [h|] eqn:Hi; [|congruence]. pose proof (W k h Hi) as G. unfold good in G. destruct l; cbn [negb]; [|discriminate].
    destruct v as [x|x|b|u z]; try (destruct (hv h) as [v|]; [destruct (dtype_eqb _ _)|]; discriminate).
    destruct (hp h) as [|a|q] eqn:Pp; [discriminate|discriminate|]. destruct (hv h) as [[y|y|c|u z]|] eqn:V; try (destruct G as (? & ? & ?); congruence).
    + destruct G as [_ G]. injection G as ->. cbn. rewrite Hi, V. discriminate.
    + destruct G as [_ G]. exfalso. eapply G. reflexivity.
  - discriminate.
Qed.
(** copies *)
Lemma copied_holds w h v i j : good j h -> holds w h v <-> holds w (copied i h) v.
Proof. intros G. unfold holds, copied. cbn [hv hp]. destruct (hv h); tauto. Qed.
Lemma main_copy w i j o r w' : reachable w -> o = CopyNew i j \/ (o = CopyAssign i j /\ i <> j) -> step o w = Ok r w' ->
  (forall v, reads w' i v <-> reads w j v) /\ (forall v, reads w' j v <-> reads w j v) /\ (forall a, shares w' i a <-> shares w j a) /\
  (forall t, has_type w' i t <-> has_type w j t).
Proof.
  intros Rw D H. pose proof (reach_wf w Rw) as W. assert (C : calm w o) by (destruct D as [->|[-> _]]; exact I). pose proof (step_wf _ _ _ _ W C H) as W'.
  assert (X : exists h, objs w j = Some h /\ w' = set_obj w i (Some (copied i h)) /\ i <> j).
  { destruct D as [->|[-> N]]; cbn [step] in H.
    - destruct (objs w i) eqn:Hi; [discriminate|]. destruct (objs w j) as [h|] eqn:Hj; [|discriminate]. injection H as _ <-. exists h. repeat split. congruence.
    - destruct (objs w i) as [hi|] eqn:Hi; [|discriminate]. destruct (objs w j) as [h|] eqn:Hj; [|discriminate]. destruct (Nat.eqb_spec i j); [congruence|]. injection H as _ <-. exists h. auto. }
  destruct X as (h & Hj & E & N). assert (Oi : objs w' i = Some (copied i h)) by (subst; rewrite obj_set, Nat.eqb_refl; reflexivity).
  assert (Oj : objs w' j = Some h) by (subst; rewrite obj_set; destruct (Nat.eqb_spec j i); [congruence|exact Hj]).
  pose proof (W j h Hj) as G. assert (Ex : ext w' = ext w) by (subst; reflexivity).
  split; [|split; [|split]].
  - intros v. rewrite !reads_iff by assumption. rewrite Oi, Hj. split.
    + intros (h' & Q & K). injection Q as <-. exists h. split; [reflexivity|]. apply (copied_holds w h v i j G). unfold holds in *. rewrite Ex in K. exact K.
    + intros (h' & Q & K). injection Q as <-. exists (copied i h). split; [reflexivity|]. apply (copied_holds w h v i j G) in K. unfold holds in *. rewrite Ex. exact K.
  - intros v. rewrite !reads_iff by assumption. rewrite Oj, Hj. unfold holds. rewrite Ex. tauto.
  - intros a. unfold shares. rewrite Oi, Hj. split.
    + intros (h' & Q & K). injection Q as <-. exists h. split; [reflexivity|]. unfold copied in K. cbn in K. destruct (hv h) as [[]|]; cbn in K; try discriminate. exact K.
    + intros (h' & Q & K). injection Q as <-. exists (copied i h). split; [reflexivity|]. unfold copied. cbn. unfold good in G. rewrite K in G. destruct (hv h) as [[]|]; try (destruct G as (? & ? & ?); discriminate); [destruct G; discriminate|exact K].
  - intros t. unfold has_type. rewrite Oi, Hj. split; intros (h' & Q & K); injection Q as <-; eexists; (split; [reflexivity|exact K]).
Qed.
Lemma main_own w i h k : reachable w -> objs w i = Some h -> hp h = Inside k -> k = i.
Proof.
  intros Rw Hi P. pose proof (reach_wf w Rw i h Hi) as G. unfold good in G. rewrite P in G. destruct (hv h) as [[]|]; try (destruct G as (? & ? & ?); discriminate); destruct G as [_ G]; [congruence|exfalso; eapply G; reflexivity].
Qed.
Lemma main_move w i j o r w' : reachable w -> calm w o -> o = MoveNew i j \/ o = MoveAssign i j -> step o w = Ok r w' ->
  (forall v, reads w' i v <-> reads w j v) /\ (forall a, shares w' i a <-> shares w j a) /\ (forall t, has_type w' i t <-> has_type w j t).
Proof.
  intros Rw C D H. pose proof (reach_wf w Rw) as W. pose proof (step_wf _ _ _ _ W C H) as W'.
  assert (X : exists h, objs w j = Some h /\ objs w' i = Some h /\ ext w' = ext w).
  { destruct D as [-> | ->]; cbn [step] in H.
    - destruct (objs w i) eqn:Hi; [discriminate|]. destruct (objs w j) as [h|] eqn:Hj; [|discriminate]. injection H as _ <-. exists h. rewrite !obj_set, Nat.eqb_refl. destruct (Nat.eqb_spec i j); [congruence|]. auto.
    - destruct (objs w i) eqn:Hi; [|discriminate]. destruct (objs w j) as [h'|] eqn:Hj; [|discriminate]. destruct (Nat.eqb_spec i j) as [|N]; [discriminate|]. injection H as _ <-. exists h'. rewrite !obj_set, Nat.eqb_refl. destruct (Nat.eqb_spec i j); [congruence|]. auto. }
  destruct X as (h & Hj & Hi & Ex). split; [|split].
  - intros v. rewrite !reads_iff by assumption. rewrite Hi, Hj. unfold holds. rewrite Ex. tauto.
  - intros a. unfold shares. rewrite Hi, Hj. tauto.
  - intros t. unfold has_type. rewrite Hi, Hj. tauto.
Qed.
