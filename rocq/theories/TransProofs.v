(** TransProofs.v -- proofs about the transmissions (C37-C39). *)
From Coq Require Import Reals List Bool String Ascii Arith Lia Lra Field.
From Verif Require Import TransModel TransSpec.
Import ListNotations.
Open Scope list_scope.

(** -- independent steps on a memory *)
Section Steps.
Variable X : Type.
Variable I : Type.
Variable f : I -> (nat -> X) -> (nat -> X).
Variables W Rd : I -> list nat.
Hypothesis frame : forall k m p, ~ In p (W k) -> f k m p = m p.
Hypothesis local : forall k m m', (forall p, In p (W k) \/ In p (Rd k) -> m p = m' p) -> forall p, In p (W k) -> f k m p = f k m' p.
Hypothesis disW : forall k k', k <> k' -> forall p, In p (W k) -> ~ In p (W k').
Hypothesis disR : forall k k' p, In p (Rd k) -> ~ In p (W k').

Lemma fold_frame l : forall m p, (forall k, In k l -> ~ In p (W k)) -> fold_left (fun m k => f k m) l m p = m p.
Proof.
  induction l as [|k l IH]; intros m p H; [reflexivity|]. cbn [fold_left]. rewrite IH; [apply frame; apply H; left; reflexivity|].
  intros k' K. apply H. right. exact K.
Qed.
Lemma fold_step l : NoDup l -> forall m k p, In k l -> In p (W k) -> fold_left (fun m k => f k m) l m p = f k m p.
Proof.
  induction 1 as [|k0 l N _ IH]; intros m k p K P; [destruct K|]. cbn [fold_left]. destruct K as [->|K].
  - apply fold_frame. intros k' K' Q. apply (disW k k') with (p := p); [intros ->; contradiction|exact P|exact Q].
  - rewrite (IH _ k p K P). apply local; [|exact P]. intros q [Q|Q]; apply frame; [|exact (disR k k0 q Q)].
    apply (disW k k0); [intros ->; contradiction|exact Q].
Qed.
End Steps.

(** -- names *)
Lemma str_lt_irrefl a : str_lt a a = false.
Proof. unfold str_lt. pose proof (String.compare_antisym a a) as H. destruct (String.compare a a); [reflexivity|discriminate|reflexivity]. Qed.
Lemma str_lt_asym a b : str_lt a b = true -> str_lt b a = false.
Proof. unfold str_lt. rewrite String.compare_antisym. destruct (String.compare b a); cbn; congruence. Qed.
Lemma str_lt_total a b : str_lt a b = false -> str_lt b a = false -> a = b.
Proof. unfold str_lt. rewrite (String.compare_antisym b a). destruct (String.compare a b) eqn:E; cbn; try discriminate. intros _ _. apply String.compare_eq_iff. exact E. Qed.
Fixpoint chainlt (l : list string) : Prop :=
  match l with x :: ((y :: _) as r) => str_lt x y = true /\ chainlt r | _ => True end.
Lemma insert_chain s l : chainlt l -> chainlt (set_insert s l) /\
  (forall z, str_lt z s = true -> match l with [] => True | x :: _ => str_lt z x = true end -> match set_insert s l with [] => True | x :: _ => str_lt z x = true end).
Proof.
  induction l as [|x r IH]; intros H; [cbn; split; auto|]. cbn [set_insert]. destruct (str_lt s x) eqn:E.
  { split; [cbn; auto|]. intros; assumption. }
  destruct (str_lt x s) eqn:E2; [|split; auto].
  assert (Hr : chainlt r) by (destruct r; cbn in H |- *; tauto). destruct (IH Hr) as [I1 I2]. split; [|auto].
  specialize (I2 x E2). assert (Q : match r with [] => True | y :: _ => str_lt x y = true end) by (destruct r; cbn in H; tauto).
  specialize (I2 Q). destruct (set_insert s r); cbn; auto.
Qed.
Lemma insert_in s l x : In x (set_insert s l) <-> x = s \/ In x l.
Proof.
  induction l as [|y r IH]; [cbn; split; intros [H|H]; auto|]. cbn [set_insert]. destruct (str_lt s y) eqn:E1; [cbn; split; intros [H|H]; auto|].
  destruct (str_lt y s) eqn:E2.
  - cbn [In]. rewrite IH. cbn [In]. split; [intros [H|[H|H]]|intros [H|[H|H]]]; auto.
  - pose proof (str_lt_total _ _ E2 E1) as ->. cbn [In]. split; [auto|]. intros [->|[H|H]]; auto.
Qed.
Lemma names_fold hs : forall acc, chainlt acc ->
  chainlt (fold_left (fun acc h => set_insert (h_prefix h) acc) hs acc) /\
  forall x, In x (fold_left (fun acc h => set_insert (h_prefix h) acc) hs acc) <-> In x acc \/ exists h, In h hs /\ h_prefix h = x.
Proof.
  induction hs as [|h hs IH]; intros acc C; cbn [fold_left].
  - split; [exact C|]. intros x. split; [auto|]. intros [H|(h & [] & _)]. exact H.
  - destruct (IH (set_insert (h_prefix h) acc)) as [I1 I2]; [apply insert_chain; exact C|]. split; [exact I1|]. intros x. rewrite I2, insert_in. split.
    + intros [[->|H]|(h' & H & E)]; [right; exists h; split; [left; reflexivity|reflexivity]|auto|right; exists h'; split; [right; exact H|exact E]].
    + intros [H|(h' & [->|H] & E)]; [auto|left; left; congruence|right; eauto].
Qed.
Lemma names_in hs x : In x (get_names hs) <-> exists h, In h hs /\ h_prefix h = x.
Proof. destruct (names_fold hs [] I) as [_ H]. unfold get_names. rewrite H. split; [intros [[]|H']; exact H'|auto]. Qed.
Lemma names_two hs : List.length (get_names hs) = 2 -> exists a b, get_names hs = [a; b] /\ str_lt a b = true.
Proof.
  intros L. destruct (names_fold hs [] I) as [H _]. fold (get_names hs) in H. destruct (get_names hs) as [|a [|b [|]]]; try discriminate.
  exists a, b. cbn in H. tauto.
Qed.

(** -- which storage is selected *)
Lemma storage_in hs p : In p (storage hs) <-> exists h, In h hs /\ h_ptr h = Some p.
Proof.
  unfold storage. rewrite in_flat_map. split.
  - intros (h & H & P). exists h. split; [exact H|]. destruct (h_ptr h) as [q|]; [|destruct P]. destruct P as [->|[]]. reflexivity.
  - intros (h & H & P). exists h. split; [exact H|]. rewrite P. left. reflexivity.
Qed.
Lemma storage_inj hs h h' p : NoDup (storage hs) -> In h hs -> In h' hs -> h_ptr h = Some p -> h_ptr h' = Some p -> h = h'.
Proof.
  induction hs as [|x hs IH]; intros N H H' P P'; [destruct H|].
  assert (N' : NoDup (storage hs)). { unfold storage in N. cbn [flat_map] in N. destruct (h_ptr x); [inversion N; assumption|exact N]. }
  assert (K : forall y, In y hs -> h_ptr x = Some p -> h_ptr y = Some p -> False).
  { intros y Y Px Py. unfold storage in N. cbn [flat_map] in N. rewrite Px in N. inversion N as [|? ? Q]. apply Q. apply storage_in. eauto. }
  destruct H as [<-|H], H' as [<-|H']; [reflexivity|exfalso; eauto|exfalso; eauto|exact (IH N' H H' P P')].
Qed.
Lemma ordered_in hs names i p : In p (ordered_handles hs names i) -> exists h, In h hs /\ h_itf h = i /\ In (h_prefix h) names /\ h_ptr h = Some p.
Proof.
  unfold ordered_handles, matching. rewrite in_flat_map. intros (n & N & P). apply in_flat_map in P. destruct P as (h & H & P). exists h.
  destruct (String.eqb (h_prefix h) n) eqn:E; [|destruct P]. destruct (String.eqb (h_itf h) i) eqn:E2; [|destruct P]. cbn in P.
  apply String.eqb_eq in E. apply String.eqb_eq in E2. destruct (h_ptr h); [|destruct P]. destruct P as [->|[]]. subst. auto.
Qed.
Lemma by_in hs i p : In p (by_interface hs i) -> exists h, In h hs /\ h_itf h = i /\ h_ptr h = Some p.
Proof.
  unfold by_interface. destruct (find _ hs) as [h|] eqn:F; [|intros []]. apply find_some in F. destruct F as [H E]. apply String.eqb_eq in E.
  destruct (h_ptr h) eqn:P; [|intros []]. intros [->|[]]. eauto.
Qed.
Lemma matching_nodup hs n i : NoDup (storage hs) -> NoDup (matching n i hs).
Proof.
  induction hs as [|h hs IH]; intros N; [constructor|]. unfold storage in N. cbn [flat_map] in N. cbn [matching flat_map].
  assert (N' : NoDup (storage hs)) by (destruct (h_ptr h); [inversion N; assumption|exact N]).
  destruct (_ && _); [|exact (IH N')]. destruct (h_ptr h) as [p|]; [|exact (IH N')]. constructor; [|exact (IH N')].
  inversion N as [|? ? Q]. intros P. apply Q. apply storage_in. unfold matching in P. apply in_flat_map in P. destruct P as (h' & H' & P).
  exists h'. split; [exact H'|]. destruct (_ && _); [|destruct P]. destruct (h_ptr h'); [|destruct P]. destruct P as [->|[]]. reflexivity.
Qed.
Lemma matching_in n i hs p : In p (matching n i hs) -> exists h, In h hs /\ h_prefix h = n /\ h_itf h = i /\ h_ptr h = Some p.
Proof.
  unfold matching. rewrite in_flat_map. intros (h & H & P). exists h. destruct (String.eqb (h_prefix h) n) eqn:E; [|destruct P].
  destruct (String.eqb (h_itf h) i) eqn:E2; [|destruct P]. apply String.eqb_eq in E, E2. cbn in P. destruct (h_ptr h); [|destruct P]. destruct P as [->|[]]. auto.
Qed.
Lemma ordered_nodup hs names i : NoDup (storage hs) -> NoDup names -> NoDup (ordered_handles hs names i).
Proof.
  intros N. induction 1 as [|n names Nn _ IH]; [constructor|]. unfold ordered_handles. cbn [flat_map].
  assert (D : forall p, In p (matching n i hs) -> ~ In p (flat_map (fun n => matching n i hs) names)).
  { intros p P Q. apply matching_in in P. destruct P as (h & H & E & _ & P). apply in_flat_map in Q. destruct Q as (n' & K & Q).
    apply matching_in in Q. destruct Q as (h' & H' & E' & _ & P'). pose proof (storage_inj hs h h' p N H H' P P'). subst. contradiction. }
  induction (matching_nodup hs n i N) as [|p l P _ IHl]; [exact IH|]. cbn [app]. constructor.
  - intros Q. apply in_app_or in Q. destruct Q as [Q|Q]; [contradiction|]. exact (D p (or_introl eq_refl) Q).
  - apply IHl. intros q Q. apply D. right. exact Q.
Qed.
Lemma nodup_app_l {X} (a b : list X) : NoDup (a ++ b) -> NoDup a.
Proof. induction a as [|x a IH]; intros H; [constructor|]. inversion H; subst. constructor; [intros Q; apply H2; apply in_or_app; auto|auto]. Qed.
Lemma nodup_app_r {X} (a b : list X) : NoDup (a ++ b) -> NoDup b.
Proof. induction a as [|x a IH]; intros H; [exact H|]. inversion H; auto. Qed.
Lemma nodup_app_d {X} (a b : list X) x : NoDup (a ++ b) -> In x a -> ~ In x b.
Proof. induction a as [|y a IH]; intros H P; [destruct P|]. inversion H; subst. destruct P as [->|P]; [intros Q; apply H2; apply in_or_app; auto|auto]. Qed.
Lemma itf_inj k k' : itf_name k = itf_name k' -> k = k'.
Proof. destruct k, k'; cbn; congruence. Qed.

(** what configure delivers *)
Record wired (c : configured Reals) (t : trans Reals) (jh ah : list handle) : Prop := {
  wr_t : c_trans _ c = t;
  wr_j : forall k p, In p (c_joint _ c k) -> exists h, In h jh /\ h_itf h = itf_name k /\ h_ptr h = Some p;
  wr_a : forall k p, In p (c_act _ c k) -> exists h, In h ah /\ h_itf h = itf_name k /\ h_ptr h = Some p;
  wr_jn : NoDup (storage jh) -> forall k, NoDup (c_joint _ c k);
  wr_an : NoDup (storage ah) -> forall k, NoDup (c_act _ c k);
  wr_js : match t with Simple _ _ => forall k, c_joint _ c k = by_interface jh (itf_name k)
          | _ => exists a b, get_names jh = [a; b] /\ str_lt a b = true /\ forall k, c_joint _ c k = ordered_handles jh [a; b] (itf_name k) end;
  wr_as : match t with Simple _ _ => forall k, c_act _ c k = by_interface ah (itf_name k)
          | _ => exists a b, get_names ah = [a; b] /\ str_lt a b = true /\ forall k, c_act _ c k = ordered_handles ah [a; b] (itf_name k) end }.
Lemma by_nodup hs i : NoDup (by_interface hs i).
Proof. unfold by_interface. destruct (find _ hs) as [h|]; [|constructor]. destruct (h_ptr h); [|constructor]. constructor; [intros []|constructor]. Qed.
Lemma two_nodup (a b : string) : str_lt a b = true -> NoDup [a; b].
Proof. intros H. constructor; [intros [<-|[]]; rewrite str_lt_irrefl in H; discriminate|]. constructor; [intros []|constructor]. Qed.

Lemma configure_wired t jh ah c : configure Reals t jh ah = Some c -> wired c t jh ah.
Proof.
  assert (S : forall a b a' b', get_names jh = [a; b] -> str_lt a b = true -> get_names ah = [a'; b'] -> str_lt a' b' = true ->
    (match t with Simple _ _ => False | _ => True end) ->
    wired {| c_trans := t; c_joint := fun k => ordered_handles jh (get_names jh) (itf_name k); c_act := fun k => ordered_handles ah (get_names ah) (itf_name k) |} t jh ah).
  { intros a b a' b' E L E' L' T. rewrite E, E'. constructor; cbn [c_trans c_joint c_act].
    - reflexivity.
    - intros k p P. apply ordered_in in P. destruct P as (h & ? & ? & _ & ?). eauto.
    - intros k p P. apply ordered_in in P. destruct P as (h & ? & ? & _ & ?). eauto.
    - intros N k. apply ordered_nodup; [exact N|apply two_nodup; exact L].
    - intros N k. apply ordered_nodup; [exact N|apply two_nodup; exact L'].
    - destruct t; [destruct T| |]; exists a, b; auto.
    - destruct t; [destruct T| |]; exists a', b'; auto. }
  unfold configure. destruct (negb (nonempty jh)); [discriminate|]. destruct (negb (nonempty ah)); [discriminate|]. destruct t as [red off|? ? ? ? ? ?|? ? ? ? ? ?].
  - destruct (negb _); [discriminate|]. destruct (negb _); [discriminate|]. destruct (negb _); [discriminate|]. destruct (negb _); [discriminate|].
    intros H. injection H as <-. constructor; cbn [c_trans c_joint c_act]; auto using by_in, by_nodup.
  - destruct (Nat.eqb _ _) eqn:E1; [|discriminate]. destruct (Nat.eqb (List.length (get_names ah)) _) eqn:E2; [|discriminate]. cbn [negb].
    apply Nat.eqb_eq in E1, E2. apply names_two in E1, E2. destruct E1 as (a & b & A1 & A2), E2 as (a' & b' & B1 & B2).
    do 4 (match goal with |- (if ?x then _ else _) = _ -> _ => destruct x; [discriminate|] end). intros H. injection H as <-. exact (S a b a' b' A1 A2 B1 B2 I).
  - destruct (Nat.eqb _ _) eqn:E1; [|discriminate]. destruct (Nat.eqb (List.length (get_names ah)) _) eqn:E2; [|discriminate]. cbn [negb].
    apply Nat.eqb_eq in E1, E2. apply names_two in E1, E2. destruct E1 as (a & b & A1 & A2), E2 as (a' & b' & B1 & B2).
    do 3 (match goal with |- (if ?x then _ else _) = _ -> _ => destruct x; [discriminate|] end). intros H. injection H as <-. exact (S a b a' b' A1 A2 B1 B2 I).
Qed.
Lemma itfs_nodup (t : trans Reals) : NoDup (itfs _ t).
Proof. destruct t; cbn; repeat (constructor; [cbn; intuition discriminate|]); constructor. Qed.
Lemma itf_eq_dec (a b : itf) : {a = b} + {a <> b}. Proof. decide equality. Qed.

(** single steps *)
Ltac stores := unfold store; repeat match goal with
  | |- context [Nat.eqb ?a ?a] => rewrite Nat.eqb_refl
  | |- context [Nat.eqb ?a ?b] => rewrite (proj2 (Nat.eqb_neq a b)) by (intros ?; subst; cbn [In] in *; tauto) end.
Lemma a2j1_frame (t : trans Reals) k J C m p : ~ In p J -> a2j1 _ t k J C m p = m p.
Proof.
  intros H. destruct t; cbn [a2j1]; destruct J as [|j0 [|j1 [|]]]; try reflexivity; destruct C as [|a0 [|a1 [|]]]; try reflexivity;
    destruct k; try reflexivity; cbn [In] in H; unfold store; repeat (rewrite (proj2 (Nat.eqb_neq p _)) by (intros ->; tauto)); reflexivity.
Qed.
Lemma j2a1_frame (t : trans Reals) k J C m p : ~ In p C -> j2a1 _ t k J C m p = m p.
Proof.
  intros H. destruct t; cbn [j2a1]; destruct J as [|j0 [|j1 [|]]]; try reflexivity; destruct C as [|a0 [|a1 [|]]]; try reflexivity;
    destruct k; try reflexivity; cbn [In] in H; unfold store; repeat (rewrite (proj2 (Nat.eqb_neq p _)) by (intros ->; tauto)); reflexivity.
Qed.
Lemma a2j1_local (t : trans Reals) k J C m m' : (forall p, In p J \/ In p C -> m p = m' p) -> forall p, In p J -> a2j1 _ t k J C m p = a2j1 _ t k J C m' p.
Proof.
  intros H p P. destruct t; cbn [a2j1]; destruct J as [|j0 [|j1 [|]]]; try (apply H; auto; fail); destruct C as [|a0 [|a1 [|]]]; try (apply H; auto; fail);
    destruct k; try (apply H; auto; fail); unfold store;
    repeat match goal with |- context [Nat.eqb ?a ?b] => destruct (Nat.eqb_spec a b); subst end;
    repeat (rewrite (H _) by (cbn [In]; auto 8)); reflexivity.
Qed.
Lemma j2a1_local (t : trans Reals) k J C m m' : (forall p, In p C \/ In p J -> m p = m' p) -> forall p, In p C -> j2a1 _ t k J C m p = j2a1 _ t k J C m' p.
Proof.
  intros H p P. destruct t; cbn [j2a1]; destruct J as [|j0 [|j1 [|]]]; try (apply H; auto; fail); destruct C as [|a0 [|a1 [|]]]; try (apply H; auto; fail);
    destruct k; try (apply H; auto; fail); unfold store;
    repeat match goal with |- context [Nat.eqb ?a ?b] => destruct (Nat.eqb_spec a b); subst end;
    repeat (rewrite (H _) by (cbn [In]; auto 8)); reflexivity.
Qed.
(** reductions are not zero *)
Definition sound (t : trans Reals) : Prop :=
  match t with Simple r _ => r <> 0%R
  | Differential a0 a1 j0 j1 _ _ | FourBar a0 a1 j0 j1 _ _ => a0 <> 0%R /\ a1 <> 0%R /\ j0 <> 0%R /\ j1 <> 0%R end.
Lemma nz (x : R) : is_zero Reals x = false -> x <> 0%R.
Proof. cbn. destruct (Req_EM_T x 0); [discriminate|auto]. Qed.
Lemma load_sound k js acts t : load Reals k js acts = Some t -> sound t.
Proof.
  assert (M : forall mk (a0 a1 j0 j1 o0 o1 : R), (forall a b c d e f, sound (mk a b c d e f) <-> a <> 0%R /\ b <> 0%R /\ c <> 0%R /\ d <> 0%R) ->
    make_two Reals mk [a0; a1] [j0; j1] [o0; o1] = Some t -> sound t).
  { intros mk a0 a1 j0 j1 o0 o1 E. unfold make_two. destruct (is_zero Reals a0) eqn:Z1; [discriminate|]. destruct (is_zero Reals a1) eqn:Z2; [discriminate|].
    destruct (is_zero Reals j0) eqn:Z3; [discriminate|]. destruct (is_zero Reals j1) eqn:Z4; [discriminate|]. cbn [orb]. intros H. injection H as <-.
    apply E. auto using nz. }
  unfold load. destruct k.
  - destruct js as [|j js]; [discriminate|]. unfold make_simple. destruct (is_zero Reals (ji_red _ j)) eqn:Z; [discriminate|]. intros H. injection H as <-. cbn. apply nz. exact Z.
  - destruct acts as [|a0 [|a1 acts]]; try discriminate. destruct js as [|j0 [|j1 js]]; try discriminate. apply M. intros. cbn. tauto.
  - destruct acts as [|a0 [|a1 acts]]; try discriminate. destruct js as [|j0 [|j1 js]]; try discriminate. apply M. intros. cbn. tauto.
Qed.
Lemma step_act (t : trans Reals) k J C m : sound t -> NoDup (J ++ C) -> forall p, In p C -> j2a1 _ t k J C (a2j1 _ t k J C m) p = m p.
Proof.
  intros S N p P. assert (F : forall q, In q C -> a2j1 _ t k J C m q = m q). { intros q Q. apply a2j1_frame. intros Q'. exact (nodup_app_d J C q N Q' Q). }
  destruct t as [r o|ar0 ar1 jr0 jr1 o0 o1|ar0 ar1 jr0 jr1 o0 o1]; cbn [sound] in S.
  - destruct J as [|j [|? ?]]; try (apply F; exact P). destruct C as [|a [|? ?]]; try (apply F; exact P). destruct P as [<-|[]]. inversion N; subst. cbn [app In] in *.
    destruct k; cbn [j2a1 a2j1]; stores; cbn; try field; try assumption; reflexivity.
  - destruct J as [|j0 [|j1 [|? ?]]]; try (apply F; exact P). destruct C as [|a0 [|a1 [|? ?]]]; try (apply F; exact P).
    cbn [app] in N. repeat match goal with H : NoDup (_ :: _) |- _ => inversion H; clear H; subst end. cbn [In] in *.
    destruct S as (S1 & S2 & S3 & S4). destruct P as [<-|[<-|[]]]; destruct k; cbn [j2a1 a2j1]; stores; cbn; try field; auto; reflexivity.
  - destruct J as [|j0 [|j1 [|? ?]]]; try (apply F; exact P). destruct C as [|a0 [|a1 [|? ?]]]; try (apply F; exact P).
    cbn [app] in N. repeat match goal with H : NoDup (_ :: _) |- _ => inversion H; clear H; subst end. cbn [In] in *.
    destruct S as (S1 & S2 & S3 & S4). destruct P as [<-|[<-|[]]]; destruct k; cbn [j2a1 a2j1]; stores; cbn; try field; auto; reflexivity.
Qed.
Lemma step_joint (t : trans Reals) k J C m : sound t -> k <> Abs -> NoDup (J ++ C) -> forall p, In p J -> a2j1 _ t k J C (j2a1 _ t k J C m) p = m p.
Proof.
  intros S NA N p P. assert (F : forall q, In q J -> j2a1 _ t k J C m q = m q). { intros q Q. apply j2a1_frame. exact (nodup_app_d J C q N Q). }
  destruct t as [r o|ar0 ar1 jr0 jr1 o0 o1|ar0 ar1 jr0 jr1 o0 o1]; cbn [sound] in S.
  - destruct J as [|j [|? ?]]; try (apply F; exact P). destruct C as [|a [|? ?]]; try (apply F; exact P). destruct P as [<-|[]]. inversion N; subst. cbn [app In] in *.
    destruct k; try congruence; cbn [j2a1 a2j1]; stores; cbn; try field; try assumption; reflexivity.
  - destruct J as [|j0 [|j1 [|? ?]]]; try (apply F; exact P). destruct C as [|a0 [|a1 [|? ?]]]; try (apply F; exact P).
    cbn [app] in N. repeat match goal with H : NoDup (_ :: _) |- _ => inversion H; clear H; subst end. cbn [In] in *.
    destruct S as (S1 & S2 & S3 & S4). destruct P as [<-|[<-|[]]]; destruct k; try congruence; cbn [j2a1 a2j1]; stores; cbn; try field; auto; reflexivity.
  - destruct J as [|j0 [|j1 [|? ?]]]; try (apply F; exact P). destruct C as [|a0 [|a1 [|? ?]]]; try (apply F; exact P).
    cbn [app] in N. repeat match goal with H : NoDup (_ :: _) |- _ => inversion H; clear H; subst end. cbn [In] in *.
    destruct S as (S1 & S2 & S3 & S4). destruct P as [<-|[<-|[]]]; destruct k; try congruence; cbn [j2a1 a2j1]; stores; cbn; try field; auto; reflexivity.
Qed.

Section Wired.
Variable c : configured Reals.
Variable t : trans Reals.
Variables jh ah : list handle.
Hypothesis Wd : wired c t jh ah.
Hypothesis Sep : separate jh ah.
Notation J := (c_joint _ c). Notation C := (c_act _ c).
Lemma dis_j k k' : k <> k' -> forall p, In p (J k) -> ~ In p (J k').
Proof.
  intros N p P Q. destruct Wd as [_ Wj _ _ _ _ _]. apply Wj in P, Q. destruct P as (h & H & I1 & P), Q as (h' & H' & I2 & Q).
  pose proof (storage_inj jh h h' p (nodup_app_l _ _ Sep) H H' P Q). subst. apply N. apply itf_inj. congruence.
Qed.
Lemma dis_a k k' : k <> k' -> forall p, In p (C k) -> ~ In p (C k').
Proof.
  intros N p P Q. destruct Wd as [_ _ Wj _ _ _ _]. apply Wj in P, Q. destruct P as (h & H & I1 & P), Q as (h' & H' & I2 & Q).
  pose proof (storage_inj ah h h' p (nodup_app_r _ _ Sep) H H' P Q). subst. apply N. apply itf_inj. congruence.
Qed.
Lemma j_store k p : In p (J k) -> In p (storage jh).
Proof. intros P. apply (wr_j _ _ _ _ Wd) in P. destruct P as (h & H & _ & P). apply storage_in. eauto. Qed.
Lemma a_store k p : In p (C k) -> In p (storage ah).
Proof. intros P. apply (wr_a _ _ _ _ Wd) in P. destruct P as (h & H & _ & P). apply storage_in. eauto. Qed.
Lemma dis_ja k k' p : In p (J k) -> ~ In p (C k').
Proof. intros P Q. exact (nodup_app_d _ _ p Sep (j_store k p P) (a_store k' p Q)). Qed.
Lemma dis_aj k k' p : In p (C k) -> ~ In p (J k').
Proof. intros P Q. exact (dis_ja k' k p Q P). Qed.
Lemma nodup_jc k : NoDup (J k ++ C k).
Proof.
  pose proof (wr_jn _ _ _ _ Wd (nodup_app_l _ _ Sep) k) as A. pose proof (wr_an _ _ _ _ Wd (nodup_app_r _ _ Sep) k) as B.
  assert (D : forall p, In p (J k) -> ~ In p (C k)) by (intros; apply (dis_ja k k); assumption).
  induction A as [|p l P _ IH]; [exact B|]. cbn. constructor; [|apply IH; intros; apply D; right; assumption].
  intros Q. apply in_app_or in Q. destruct Q as [Q|Q]; [contradiction|]. exact (D p (or_introl eq_refl) Q).
Qed.
Lemma a2j_at k m p : In k (itfs _ t) -> In p (J k) -> actuator_to_joint _ c m p = a2j1 _ t k (J k) (C k) m p.
Proof.
  intros K P. unfold actuator_to_joint. rewrite (wr_t _ _ _ _ Wd).
  apply (fold_step R itf (fun k m => a2j1 _ t k (J k) (C k) m) J C); [intros; apply a2j1_frame; assumption|intros; apply a2j1_local; assumption|exact dis_j|intros; apply (dis_aj k0); assumption|apply itfs_nodup|exact K|exact P].
Qed.
Lemma j2a_at k m p : In k (itfs _ t) -> In p (C k) -> joint_to_actuator _ c m p = j2a1 _ t k (J k) (C k) m p.
Proof.
  intros K P. unfold joint_to_actuator. rewrite (wr_t _ _ _ _ Wd).
  apply (fold_step R itf (fun k m => j2a1 _ t k (J k) (C k) m) C J); [intros; apply j2a1_frame; assumption|intros; apply j2a1_local; assumption|exact dis_a|intros; apply (dis_ja k0); assumption|apply itfs_nodup|exact K|exact P].
Qed.
Lemma a2j_frame m p : (forall k, In k (itfs _ t) -> ~ In p (J k)) -> actuator_to_joint _ c m p = m p.
Proof.
  intros H. unfold actuator_to_joint. rewrite (wr_t _ _ _ _ Wd).
  apply (fold_frame R itf (fun k m => a2j1 _ t k (J k) (C k) m) J); [intros; apply a2j1_frame; assumption|exact H].
Qed.
Lemma j2a_frame m p : (forall k, In k (itfs _ t) -> ~ In p (C k)) -> joint_to_actuator _ c m p = m p.
Proof.
  intros H. unfold joint_to_actuator. rewrite (wr_t _ _ _ _ Wd).
  apply (fold_frame R itf (fun k m => j2a1 _ t k (J k) (C k) m) C); [intros; apply j2a1_frame; assumption|exact H].
Qed.
Hypothesis S : sound t.
Lemma round_act m p : In p (storage ah) -> joint_to_actuator _ c (actuator_to_joint _ c m) p = m p.
Proof.
  intros P. assert (F : actuator_to_joint _ c m p = m p). { apply a2j_frame. intros k _ Q. exact (nodup_app_d _ _ p Sep (j_store k p Q) P). }
  assert (D : (exists k, In k (itfs _ t) /\ In p (C k)) \/ ~ (exists k, In k (itfs _ t) /\ In p (C k))).
  { induction (itfs _ t) as [|k l IH]; [right; intros (k & [] & _)|]. destruct (in_dec Nat.eq_dec p (C k)); [left; exists k; split; [left; reflexivity|assumption]|].
    destruct IH as [(k' & A & B)|N]; [left; exists k'; split; [right; exact A|exact B]|right; intros (k' & [->|A] & B); [contradiction|apply N; eauto]]. }
  destruct D as [(k & K & Q)|N]; [|rewrite j2a_frame; [exact F|intros k K Q; apply N; eauto]].
  rewrite (j2a_at k _ p K Q). rewrite <- (step_act t k (J k) (C k) m S (nodup_jc k) p Q) at 1.
  apply j2a1_local; [|exact Q]. intros q [Z|Z].
  - rewrite a2j_frame; [symmetry; apply a2j1_frame; apply (dis_aj k); exact Z|]. intros k' _. apply (dis_aj k). exact Z.
  - apply (a2j_at k m q K Z).
Qed.
Lemma round_joint m p : In p (storage jh) -> ~ In p (J Abs) -> actuator_to_joint _ c (joint_to_actuator _ c m) p = m p.
Proof.
  intros P NA. assert (F : joint_to_actuator _ c m p = m p). { apply j2a_frame. intros k _ Q. exact (nodup_app_d _ _ p Sep P (a_store k p Q)). }
  assert (D : (exists k, In k (itfs _ t) /\ In p (J k)) \/ ~ (exists k, In k (itfs _ t) /\ In p (J k))).
  { induction (itfs _ t) as [|k l IH]; [right; intros (k & [] & _)|]. destruct (in_dec Nat.eq_dec p (J k)); [left; exists k; split; [left; reflexivity|assumption]|].
    destruct IH as [(k' & A & B)|N]; [left; exists k'; split; [right; exact A|exact B]|right; intros (k' & [->|A] & B); [contradiction|apply N; eauto]]. }
  destruct D as [(k & K & Q)|N]; [|rewrite a2j_frame; [exact F|intros k K Q; apply N; eauto]].
  rewrite (a2j_at k _ p K Q). rewrite <- (step_joint t k (J k) (C k) m S ltac:(intros ->; contradiction) (nodup_jc k) p Q) at 1.
  apply a2j1_local; [|exact Q]. intros q [Z|Z].
  - rewrite j2a_frame; [symmetry; apply j2a1_frame; apply (dis_ja k); exact Z|]. intros k' _. apply (dis_ja k). exact Z.
  - apply (j2a_at k m q K Z).
Qed.
End Wired.

Lemma main_actuators k js acts t jh ah c : load Reals k js acts = Some t -> configure Reals t jh ah = Some c -> separate jh ah ->
  forall m h p, In h ah -> h_ptr h = Some p -> joint_to_actuator Reals c (actuator_to_joint Reals c m) p = m p.
Proof.
  intros L H Sep m h p A P. apply (round_act c t jh ah (configure_wired _ _ _ _ H) Sep (load_sound _ _ _ _ L)). apply storage_in. eauto.
Qed.
Lemma main_joints k js acts t jh ah c : load Reals k js acts = Some t -> configure Reals t jh ah = Some c -> separate jh ah ->
  forall m h p, In h jh -> h_ptr h = Some p -> h_itf h <> itf_name Abs -> actuator_to_joint Reals c (joint_to_actuator Reals c m) p = m p.
Proof.
  intros L H Sep m h p A P NA. pose proof (configure_wired _ _ _ _ H) as Wd. apply (round_joint c t jh ah Wd Sep (load_sound _ _ _ _ L)); [apply storage_in; eauto|].
  intros Q. apply (wr_j _ _ _ _ Wd) in Q. destruct Q as (h' & H' & I & Q). apply NA. rewrite (storage_inj jh h h' p (nodup_app_l _ _ Sep) A H' P Q). exact I.
Qed.
Lemma main_frame t jh ah c : configure Reals t jh ah = Some c -> forall m p,
  (~ In p (storage jh) -> actuator_to_joint Reals c m p = m p) /\ (~ In p (storage ah) -> joint_to_actuator Reals c m p = m p).
Proof.
  intros H m p. pose proof (configure_wired _ _ _ _ H) as Wd. split; intros N.
  - apply (a2j_frame c t jh ah Wd). intros k _ Q. apply N. exact (j_store c t jh ah Wd k p Q).
  - apply (j2a_frame c t jh ah Wd). intros k _ Q. apply N. exact (a_store c t jh ah Wd k p Q).
Qed.
