From Coq Require Import List Bool String Arith Lia.
From Verif Require Import OrderedModel OrderedSpec.
Import ListNotations.
Open Scope string_scope.
Open Scope list_scope.
Open Scope nat_scope.

Lemma matches_iff : forall ty n u, matches ty n u = true <-> full_name u = requested ty n.
Proof.
  intros ty n u. unfold matches, requested, full_name. destruct ty as [|c ty].
  - change (negb ("" =? "")%string) with false. cbv iota. rewrite String.eqb_eq. split; congruence.
  - change (negb (String c ty =? "")%string) with true. cbv iota. rewrite orb_true_iff, andb_true_iff, !String.eqb_eq. split; [|intros E; right; congruence].
    intros [[E1 E2]|E]; [subst; rewrite <- E2; reflexivity|congruence].
Qed.
Lemma app_nil : forall (A : Type) (a : list A), a ++ [] = a. Proof. intros; apply app_nil_r. Qed.

Fixpoint hits (ty n : string) (k : nat) (us : list iface) : list nat :=
  match us with [] => [] | u :: us => (if matches ty n u then [k] else []) ++ hits ty n (S k) us end.
Lemma inner_hits : forall us ty n k acc, inner ty n k us acc = acc ++ hits ty n k us.
Proof.
  induction us as [|u us IH]; intros; cbn [inner hits]; [now rewrite app_nil_r|].
  rewrite IH. destruct (matches ty n u); cbn [app]; [now rewrite <- app_assoc|reflexivity].
Qed.
Lemma outer_hits : forall names us ty acc, outer ty names us acc = acc ++ flat_map (fun n => hits ty n 0 us) names.
Proof.
  induction names as [|n names IH]; intros; cbn [outer flat_map]; [now rewrite app_nil_r|].
  rewrite IH, inner_hits, app_assoc. reflexivity.
Qed.
Lemma hits_in : forall us ty n k i, In i (hits ty n k us) <-> k <= i /\ exists u, nth_error us (i - k) = Some u /\ full_name u = requested ty n.
Proof.
  induction us as [|u us IH]; intros; cbn [hits].
  - split; [intros []|]. intros [_ (v & H & _)]. destruct (i - k); discriminate.
  - rewrite in_app_iff, IH. split.
    + intros [H|[H1 (v & H2 & H3)]].
      * destruct (matches ty n u) eqn:M; [|destruct H]. destruct H as [<-|[]]. split; [lia|]. exists u.
        rewrite Nat.sub_diag. split; [reflexivity|]. now apply matches_iff.
      * split; [lia|]. exists v. split; [|assumption]. replace (i - k) with (S (i - S k)) by lia. exact H2.
    + intros [H1 (v & H2 & H3)]. destruct (Nat.eq_dec i k) as [->|Hn].
      * left. rewrite Nat.sub_diag in H2. injection H2 as <-. apply matches_iff in H3. rewrite H3. now left.
      * right. split; [lia|]. exists v. split; [|assumption]. replace (i - k) with (S (i - S k)) in H2 by lia. exact H2.
Qed.
Lemma hits_asks : forall us ty n i, In i (hits ty n 0 us) <-> asks_for us ty n i.
Proof.
  intros. rewrite hits_in, Nat.sub_0_r. unfold asks_for. split; [tauto|]. intros H. split; [lia|exact H].
Qed.
Lemma hits_short : forall us ty n k, distinct us -> List.length (hits ty n k us) <= 1.
Proof.
  induction us as [|u us IH]; intros ty n k D; cbn [hits]; [cbn; lia|]. inversion D; subst.
  rewrite app_length. destruct (matches ty n u) eqn:M; [|cbn; now apply IH].
  destruct (hits ty n (S k) us) as [|j l] eqn:E; [cbn; lia|].
  exfalso. assert (Hj : In j (hits ty n (S k) us)) by (rewrite E; now left).
  apply hits_in in Hj as [_ (v & Hv & Ev)]. apply matches_iff in M. apply H1. rewrite M, <- Ev.
  apply in_map. eapply nth_error_In, Hv.
Qed.

Lemma flat_short : forall us ty names, distinct us ->
  List.length (flat_map (fun n => hits ty n 0 us) names) <= List.length names.
Proof.
  induction names as [|n names IH]; intros D; cbn [flat_map]; [cbn; lia|]. rewrite app_length. cbn [List.length].
  pose proof (hits_short us ty n 0 D). specialize (IH D). lia.
Qed.
Lemma flat_order : forall us ty names, distinct us ->
  List.length names = List.length (flat_map (fun n => hits ty n 0 us) names) ->
  in_order us ty names (flat_map (fun n => hits ty n 0 us) names).
Proof.
  induction names as [|n names IH]; intros D E; cbn [flat_map]; [constructor|].
  cbn [flat_map List.length] in E. rewrite app_length in E.
  pose proof (hits_short us ty n 0 D). pose proof (flat_short us ty names D).
  destruct (hits ty n 0 us) as [|i [|j l]] eqn:Eh; cbn [List.length] in *; try lia.
  cbn [app]. constructor; [|apply IH; [assumption|lia]].
  apply hits_asks. rewrite Eh. now left.
Qed.
Lemma flat_full : forall us ty names, distinct us -> Forall (found us ty) names ->
  List.length names = List.length (flat_map (fun n => hits ty n 0 us) names).
Proof.
  induction names as [|n names IH]; intros D E; cbn [flat_map List.length]; [reflexivity|].
  inversion E as [|? ? [k Hk] Hr]; subst. rewrite app_length, <- IH by assumption.
  pose proof (hits_short us ty n 0 D). apply hits_asks in Hk.
  destruct (hits ty n 0 us) as [|i [|j l]]; cbn [List.length] in *; [destruct Hk|lia|lia].
Qed.

Lemma main_true : forall us names ty cap out, distinct us ->
  get_ordered_interfaces us names ty cap [] = Returned true out -> in_order us ty names out.
Proof.
  intros us names ty cap out D H. unfold get_ordered_interfaces in H.
  destruct (cap <? List.length names); [discriminate|]. injection H as H1 H2.
  apply Nat.eqb_eq in H1. rewrite outer_hits in *. cbn [app] in *. subst out. now apply flat_order.
Qed.
Lemma main_complete : forall us names ty cap, distinct us -> List.length names <= cap ->
  exists b out, get_ordered_interfaces us names ty cap [] = Returned b out /\ List.length out <= cap /\
  (b = true <-> Forall (found us ty) names) /\
  (forall k, In k out <-> exists n, In n names /\ asks_for us ty n k).
Proof.
  intros us names ty cap D Hc. unfold get_ordered_interfaces.
  replace (cap <? List.length names) with false by (symmetry; apply Nat.ltb_ge; lia).
  eexists. eexists. split; [reflexivity|]. rewrite outer_hits. cbn [app].
  split; [pose proof (flat_short us ty names D); lia|]. split.
  - rewrite Nat.eqb_eq. split; [|apply flat_full; assumption].
    intros E. pose proof (flat_order us ty names D E) as F. clear E. unfold in_order in F. clear Hc.
    revert F. generalize (flat_map (fun n => hits ty n 0 us) names). intros l F.
    induction F; constructor; [eexists; eassumption|assumption].
  - intros k. rewrite in_flat_map. split; intros (n & Hn & Hk); exists n; (split; [assumption|]); now apply hits_asks.
Qed.
Lemma main_throw : forall us names ty cap ordered,
  get_ordered_interfaces us names ty cap ordered = RangeError <-> cap < List.length names.
Proof.
  intros. unfold get_ordered_interfaces. destruct (Nat.ltb_spec cap (List.length names)); split; intros; try congruence; lia.
Qed.
Lemma main_contains : forall l ty, contains_interface_type l ty = true <-> In ty l.
Proof.
  intros. unfold contains_interface_type. rewrite existsb_exists. split.
  - intros (x & H & E). apply String.eqb_eq in E. now subst.
  - intros H. exists ty. split; [assumption|]. apply String.eqb_refl.
Qed.
