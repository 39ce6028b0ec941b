(** SemMain.v -- proofs for C66: GPS and range sensor, get_values, command devices. *)
From Coq Require Import List Bool String Arith Lia.
From Verif Require Import OrderedModel OrderedSpec OrderedProofs SemModel SemSpec SemProofs.
Import ListNotations.
Open Scope string_scope.
Open Scope list_scope.
Open Scope nat_scope.

Section P.
Context {V : Type}.

Lemma range_main (conv : V -> V) nan us name s rd : distinct us -> assign us (range_sensor name) = (s, true) ->
  exists p, asks_for us "" (name ++ "/range") p /\ range_message conv nan rd s = Some [("range", now rd conv nan p)].
Proof.
  intros D H. destruct (assign_spec us (range_sensor name) s D eq_refl H) as [_ O]. cbn in O. inversion O as [|? p ? l Hp O' E1 E2]; subst. inversion O'; subst.
  exists p. split; [exact Hp|]. unfold range_message, reading. rewrite <- E2. reflexivity.
Qed.
Lemma gps_main to_i8 to_u16 (nan max_i8 max_u16 zero : V) us name (cov : bool) data s rd :
  List.length data = (if cov then 3 else 0) -> distinct us -> assign us (set_data (gps_sensor zero cov name) data) = (s, true) ->
  exists s' msg, gps_message to_i8 to_u16 nan max_i8 max_u16 rd s = Some (s', msg) /\
    map fst msg = gps_fields ++ (if cov then gps_cov_fields else []) /\
    (forall f v, In (f, v) msg -> exists p, asks_for us "" (name ++ "/" ++ f) p /\
       gps_value to_i8 to_u16 nan max_i8 max_u16 rd (combine gps_cov_fields data) f p v) /\
    s_refs s' = s_refs s /\ List.length (s_data s') = List.length data /\
    (forall f v, In (f, v) (combine gps_cov_fields (s_data s')) -> In (f, v) msg).
Proof.
  intros L D H. destruct (assign_spec us (set_data (gps_sensor zero cov name) data) s D eq_refl H) as [Es O].
  assert (SD : s_data s = data) by (rewrite Es; reflexivity). assert (SA : s_axes s = if cov then trues 3 else []) by (rewrite Es; reflexivity).
  unfold gps_message, reading. rewrite SD, SA. clear SA SD. destruct s as [sn sx sd sr]. cbn [s_refs set_data s_data] in *. clear H Es.
  destruct cov; cbn [set_data gps_sensor s_names] in O; unfold under, gps_fields, gps_cov_fields in O; cbn [app map] in O;
    repeat match goal with X : in_order _ _ (_ :: _) _ |- _ => unfold in_order in X | X : Forall2 _ (_ :: _) _ |- _ => inversion X; clear X; subst | X : Forall2 _ [] _ |- _ => inversion X; clear X; subst | X : in_order _ _ [] _ |- _ => unfold in_order in X end; cbn [nth_error skipn].
  - destruct data as [|d1 [|d2 [|d3 [|]]]]; try discriminate. cbn [pull trues repeat]. eexists. eexists. split; [reflexivity|]. split; [reflexivity|]. split; [|split; [cbn; congruence|split; [reflexivity|]]].
    + cbn [combine gps_fields gps_cov_fields app In]. intros f v Hf.
      repeat (destruct Hf as [Hf|Hf]; [injection Hf as <- <-; eexists; split; [eassumption|]; unfold gps_value; cbn; first [reflexivity|eexists; split; [|reflexivity]; tauto]|]). destruct Hf.
    + cbn [combine gps_fields gps_cov_fields app In set_data s_data]. intros f v Hf. tauto.
  - destruct data as [|]; try discriminate. cbn [pull]. eexists. eexists. split; [reflexivity|]. split; [reflexivity|]. split; [|split; [cbn; congruence|split; [reflexivity|]]].
    + cbn [combine gps_fields gps_cov_fields app In]. intros f v Hf.
      repeat (destruct Hf as [Hf|Hf]; [injection Hf as <- <-; eexists; split; [eassumption|]; unfold gps_value; cbn; first [reflexivity|eexists; split; [|reflexivity]; tauto]|]). destruct Hf.
    + cbn. intros f v [].
Qed.

(** ---- get_values *)
Lemma read_all_spec (rd : nat -> option V) : forall refs l, read_all rd refs = Some l <-> Forall2 (fun p v => rd p = Some v) refs l.
Proof.
  induction refs as [|r refs IH]; intros l; cbn.
  - split; [intros [= <-]; constructor|intros H; inversion H; reflexivity].
  - split.
    + destruct (rd r) eqn:E; [|discriminate]. destruct (read_all rd refs) as [l'|] eqn:E'; [|discriminate]. intros [= <-]. constructor; [exact E|]. apply IH. reflexivity.
    + intros H. inversion H as [|? v ? l' Hv H']; subst. rewrite Hv. apply IH in H'. rewrite H'. reflexivity.
Qed.
Lemma values_main (us : list iface) (s0 s : sensor V) rd : distinct us -> s_refs s0 = [] -> assign us s0 = (s, true) ->
  (forall p, rd p <> None) ->
  exists l, get_values rd (List.length (s_names s0)) [] s = Some (true, l) /\
  Forall2 (fun k v => exists p, asks_for us "" k p /\ rd p = Some v) (s_names s0) l.
Proof.
  intros D R H A. destruct (assign_spec us s0 s D R H) as [_ O]. unfold get_values. rewrite (forall2_len _ _ _ O), Nat.eqb_refl. cbn [negb].
  unfold in_order in O. revert O. generalize (s_names s0) (s_refs s). induction l as [|k ks IH]; intros refs O; inversion O as [|? r ? refs' Hr O']; subst.
  - exists []. split; [reflexivity|constructor].
  - destruct (IH refs' O') as (l & E & F). cbn [read_all]. destruct (rd r) as [v|] eqn:Er; [|elim (A r Er)].
    destruct (read_all rd refs') as [l'|]; [|discriminate]. injection E as <-. exists (v :: l'). split; [reflexivity|]. constructor; [eauto|exact F].
Qed.
Lemma values_capacity (s : sensor V) rd cap vs : cap <> List.length (s_refs s) -> get_values rd cap vs s = Some (false, vs).
Proof. intros H. unfold get_values. apply Nat.eqb_neq in H. rewrite H. reflexivity. Qed.

(** ---- command devices *)
Lemma write_all_true (ok : nat -> bool) : forall refs (vs : list V) w, List.length vs = List.length refs -> write_all ok refs vs = (w, true) -> w = combine refs vs.
Proof.
  induction refs as [|r refs IH]; intros [|v vs] w L; try discriminate; cbn; [intros [= <-]; reflexivity|].
  destruct (write_all ok refs vs) as [w' b] eqn:E. destruct (ok r); cbn; [|discriminate]. intros [= <- ->]. f_equal. apply IH; [cbn in L; lia|exact E].
Qed.
Lemma write_all_sub (ok : nat -> bool) : forall refs (vs : list V) w b, write_all ok refs vs = (w, b) ->
  (forall x, In x w -> In x (combine refs vs)) /\ (b = true <-> forall r, In r (firstn (List.length vs) refs) -> ok r = true).
Proof.
  induction refs as [|r refs IH]; intros [|v vs] w b; cbn; try (intros [= <- <-]; split; [intros x []|split; [intros _ r0 []|reflexivity]]).
  destruct (write_all ok refs vs) as [w' b'] eqn:E. intros [= <- <-]. destruct (IH _ _ _ E) as [A B]. split.
  - intros x Hx. apply in_app_iff in Hx. destruct Hx as [Hx|Hx]; [|right; apply A; exact Hx]. destruct (ok r); [|destruct Hx]. destruct Hx as [<-|[]]. left. reflexivity.
  - rewrite andb_true_iff, B. split; [intros [H1 H2] r0 [<-|H]; auto|intros H; split; [apply H; left; reflexivity|intros r0 Hr; apply H; right; exact Hr]].
Qed.
Lemma set_values_main us names cap refs ok (vs : list V) w b : distinct us -> get_ordered_interfaces us names "" cap [] = Returned true refs ->
  set_values ok refs vs = (w, b) ->
  (forall p v, In (p, v) w -> exists i k, nth_error names i = Some k /\ nth_error vs i = Some v /\ asks_for us "" k p) /\
  (b = true -> List.length vs = List.length names /\ forall i k v, nth_error names i = Some k -> nth_error vs i = Some v -> exists p, asks_for us "" k p /\ In (p, v) w) /\
  (List.length vs <> List.length names -> w = [] /\ b = false).
Proof.
  intros D G. pose proof (main_true _ _ _ _ _ D G) as O. unfold in_order in O. pose proof (forall2_len _ _ _ O) as LO. unfold set_values.
  assert (NTH : forall p v i, nth_error refs i = Some p -> nth_error vs i = Some v -> exists k, nth_error names i = Some k /\ asks_for us "" k p).
  { intros p v i Hp _. clear -O Hp. revert i Hp. induction O as [|k r ks rs Hk O IH]; intros [|i] Hp; cbn in *; try discriminate; [injection Hp as <-; eauto|eauto]. }
  destruct (Nat.eqb_spec (List.length vs) (List.length refs)) as [E|E]; cbn [negb].
  - intros W. destruct (write_all_sub _ _ _ _ _ W) as [A B]. split; [|split].
    + intros p v H. apply A in H. apply In_nth_error in H. destruct H as (i & H). exists i.
      assert (X : nth_error refs i = Some p /\ nth_error vs i = Some v).
      { clear -H E. revert vs i H E. induction refs as [|r rs IH]; intros [|x vs] [|i] H E; cbn in *; try discriminate; [injection H as <- <-; auto|]. eapply IH; [exact H|lia]. }
      destruct X as [X Y]. destruct (NTH p v i X Y) as (k & K1 & K2). eauto.
    + intros ->. split; [congruence|]. apply write_all_true in W; [|exact E]. subst w. intros i k v Hk Hv. clear -O Hk Hv.
      revert vs i Hk Hv. induction O as [|k0 r ks rs Hk0 O IH]; intros [|x vs] [|i] Hk Hv; cbn in *; try discriminate.
      * injection Hk as <-. injection Hv as <-. exists r. split; [exact Hk0|left; reflexivity].
      * destruct (IH vs i Hk Hv) as (p & P1 & P2). exists p. split; [exact P1|right; exact P2].
    + intros N. congruence.
  - intros [= <- <-]. split; [intros p v []|]. split; [discriminate|]. auto.
Qed.
Lemma led_main (out : V -> bool) widen us name r g b cap refs ok x y z w res : distinct us ->
  get_ordered_interfaces us (led_names name r g b) "" cap [] = Returned true refs -> led_set out widen ok refs x y z = Some (w, res) ->
  (out x || out y || out z = true -> w = [] /\ res = false) /\
  (forall p v, In (p, v) w -> (v = widen x /\ asks_for us "" (name ++ "/" ++ r) p) \/ (v = widen y /\ asks_for us "" (name ++ "/" ++ g) p) \/ (v = widen z /\ asks_for us "" (name ++ "/" ++ b) p)) /\
  (res = true -> exists pr pg pb, asks_for us "" (name ++ "/" ++ r) pr /\ asks_for us "" (name ++ "/" ++ g) pg /\ asks_for us "" (name ++ "/" ++ b) pb /\
     w = [(pr, widen x); (pg, widen y); (pb, widen z)]).
Proof.
  intros D G. pose proof (main_true _ _ _ _ _ D G) as O. unfold in_order, led_names, under in O. cbn [map] in O.
  inversion O as [|? p1 ? l1 H1 O1]; subst. inversion O1 as [|? p2 ? l2 H2 O2]; subst. inversion O2 as [|? p3 ? l3 H3 O3]; subst. inversion O3; subst. clear O O1 O2 O3.
  unfold led_set. destruct (out x || out y || out z) eqn:E; [intros [= <- <-]; split; [auto|]; split; [intros p v []|discriminate]|].
  intros W0. assert (W : write_all ok [p1; p2; p3] [widen x; widen y; widen z] = (w, res)) by congruence. clear W0. split; [discriminate|]. destruct (write_all_sub _ _ _ _ _ W) as [A B]. split.
  - intros p v H. apply A in H. cbn in H. destruct H as [H|[H|[H|[]]]]; injection H as <- <-; auto.
  - intros ->. apply write_all_true in W; [|reflexivity]. exists p1, p2, p3. subst w. auto.
Qed.
End P.
