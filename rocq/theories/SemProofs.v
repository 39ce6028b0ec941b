(** SemProofs.v -- proofs for C66. *)
From Coq Require Import List Bool String Arith Lia.
From Verif Require Import OrderedModel OrderedSpec OrderedProofs SemModel SemSpec.
Import ListNotations.
Open Scope string_scope.
Open Scope list_scope.
Open Scope nat_scope.

Section P.
Context {V : Type}.
Implicit Types (s : sensor V) (rd : nat -> option V).

Lemma pull_len rd : forall axes data refs l, List.length axes = List.length data -> pull rd axes data refs = Some l -> List.length l = List.length data.
Proof.
  induction axes as [|[] axes IH]; intros [|d data] refs l E H; cbn in *; try discriminate; try (injection H as <-; reflexivity).
  - destruct refs as [|r refs]; [discriminate|]. destruct (pull rd axes data refs) eqn:Q; [|discriminate]. injection H as <-. cbn. f_equal. eapply IH; [|exact Q]. lia.
  - destruct (pull rd axes data refs) eqn:Q; [|discriminate]. injection H as <-. cbn. f_equal. eapply IH; [|exact Q]. lia.
Qed.
(** all axes present: one interface per entry *)
Lemma pull_all rd : forall data refs, List.length refs = List.length data ->
  pull rd (trues (List.length data)) data refs = Some (map (fun x => now rd (fun v => v) (snd x) (fst x)) (combine refs data)).
Proof.
  induction data as [|d data IH]; intros [|r refs] E; try discriminate; [reflexivity|]. cbn. cbn in E. fold (trues (List.length data)). rewrite IH by lia. reflexivity.
Qed.
Lemma calls_all fields : forall rds s msg, s_axes s = trues (List.length (s_data s)) -> List.length (s_refs s) = List.length (s_data s) ->
  let fin := map (fun x => latest rds (fst x) (snd x)) (combine (s_refs s) (s_data s)) in
  calls fields rds s msg = Some (set_data s fin, match rds with [] => msg | _ => combine fields fin end).
Proof.
  induction rds as [|rd rds IH]; intros s msg A L; cbn zeta; cbn [calls].
  - f_equal. f_equal. unfold latest. cbn [fold_left]. destruct s as [na ax da re]. unfold set_data. cbn in *. f_equal.
    clear A. revert re L. induction da as [|d da IHd]; intros [|r re] L; try discriminate; [reflexivity|]. cbn. f_equal. apply IHd. cbn in L. lia.
  - unfold message, update_data. rewrite A, pull_all by exact L.
    set (s1 := set_data s _). rewrite IH.
    + cbn [set_data s_refs s_data s1].
      assert (E : map (fun x => latest rds (fst x) (snd x)) (combine (s_refs s) (map (fun x => now rd (fun v => v) (snd x) (fst x)) (combine (s_refs s) (s_data s))))
        = map (fun x => latest (rd :: rds) (fst x) (snd x)) (combine (s_refs s) (s_data s))).
      { revert L. generalize (s_refs s) (s_data s). induction l as [|r re IHr]; intros [|d da] L; try discriminate; [reflexivity|]. cbn. f_equal. apply IHr. cbn in L. lia. }
      rewrite E. destruct rds; [|reflexivity]. reflexivity.
    + cbn. rewrite map_length, combine_length. rewrite L, A, Nat.min_id. reflexivity.
    + cbn. rewrite map_length, combine_length, L, Nat.min_id. reflexivity.
Qed.
Lemma forall2_impl {A B} (P Q : A -> B -> Prop) l l' : (forall a b, P a b -> Q a b) -> Forall2 P l l' -> Forall2 Q l l'.
Proof. intros H F. induction F; constructor; auto. Qed.
Lemma forall2_len {A B} (P : A -> B -> Prop) l l' : Forall2 P l l' -> List.length l = List.length l'.
Proof. induction 1; cbn; congruence. Qed.
Lemma assign_spec us s0 s : distinct us -> s_refs s0 = [] -> assign us s0 = (s, true) ->
  s = set_refs s0 (s_refs s) /\ in_order us "" (s_names s0) (s_refs s).
Proof.
  intros D R. unfold assign. rewrite R. destruct (get_ordered_interfaces us (s_names s0) "" (List.length (s_names s0)) []) as [|b refs] eqn:E; [discriminate|].
  intros [= <- ->]. split; [reflexivity|]. exact (main_true _ _ _ _ _ D E).
Qed.
Lemma reports_all fields name s0 : s_names s0 = under name fields -> s_axes s0 = trues (List.length fields) ->
  List.length (s_data s0) = List.length fields -> s_refs s0 = [] -> reports fields name s0.
Proof.
  intros N A L R us s rds rd D HA. destruct (assign_spec _ _ _ D R HA) as [Es O].
  assert (LR : List.length (s_refs s) = List.length fields).
  { apply forall2_len in O. rewrite N in O. unfold under in O. rewrite map_length in O. congruence. }
  assert (SD : s_data s = s_data s0) by (rewrite Es; reflexivity).
  assert (SA : s_axes s = s_axes s0) by (rewrite Es; reflexivity).
  rewrite (calls_all fields (rds ++ [rd]) s []); [|rewrite SA, SD, L; exact A|rewrite SD, LR; congruence].
  eexists. eexists. split; [reflexivity|].
  destruct (rds ++ [rd]) as [|a b] eqn:E0; [destruct rds; discriminate|]. cbn iota. set (h := a :: b). clearbody h. clear E0.
  rewrite SD. clear SD SA Es HA.
  unfold in_order in O. rewrite N in O. revert O L LR. unfold under. clear N A R. generalize (s_refs s) (s_data s0).
  induction fields as [|f fs IH]; intros refs data O L LR; destruct refs as [|r refs]; destruct data as [|d data]; try discriminate.
  - split; [reflexivity|intros f v []].
  - cbn [map] in O. inversion O as [|? ? ? ? Q O']; subst. destruct (IH refs data O') as [E1 E2]; [cbn in L; lia|cbn in LR; lia|].
    split; [cbn [combine map]; cbn; f_equal; exact E1|]. intros f0 v [Hv|Hv].
    + injection Hv as <- <-. exists r, d. split; [exact Q|]. split; [left; reflexivity|reflexivity].
    + destruct (E2 f0 v Hv) as (p & d' & X & Y & Z). exists p, d'. split; [exact X|]. split; [right; exact Y|exact Z].
Qed.

(** ---- slices *)
Lemma slice_spec fields from n rd s s' l : List.length (s_data s) = List.length fields -> List.length (s_axes s) = List.length fields ->
  slice from n rd s = Some (s', l) ->
  exists msg, message fields rd s = Some (s', msg) /\ values_of msg (firstn n (skipn from fields)) l.
Proof.
  intros L A. unfold slice, message, update_data. destruct (pull rd (s_axes s) (s_data s) (s_refs s)) as [d|] eqn:E; [|discriminate].
  intros [= <- <-]. eexists. split; [reflexivity|]. cbn [set_data s_data].
  apply pull_len in E; [|congruence]. assert (LD : List.length d = List.length fields) by congruence. clear E L A.
  assert (ALL : Forall2 (fun f v => In (f, v) (combine fields d)) fields d).
  { revert d LD. induction fields as [|f fs IH]; intros [|x d] LD; try discriminate; constructor; [left; reflexivity|].
    eapply forall2_impl; [|apply IH; cbn in LD; lia]. intros a b H. right. exact H. }
  unfold values_of. clear LD. revert ALL. generalize (fun f v => In (f, v) (combine fields d)). intros P ALL.
  assert (SK : Forall2 P (skipn from fields) (skipn from d)).
  { clear -ALL. revert from. induction ALL as [|f x fs ds H ALL IH]; intros [|k]; cbn; try constructor; auto. }
  clear ALL. revert n. induction SK as [|f x fs ds H ALL IH]; intros [|k]; cbn; try constructor; auto.
Qed.

(** ---- force/torque sensor with missing axes *)
Lemma axes_spec nan us ks s rds : distinct us -> assign us (ft_sensor_axes nan ks) = (s, true) ->
  exists s', updates rds s = Some s' /\
  Forall2 (fun k v => if String.eqb k "" then v = nan else exists p, asks_for us "" k p /\ v = latest rds p nan) ks (s_data s').
Proof.
  intros D HA. destruct (assign_spec us (ft_sensor_axes nan ks) s D eq_refl HA) as [Es O]. cbn [ft_sensor_axes s_names] in O.
  set (P := fun (h : list (nat -> option V)) k v => if String.eqb k "" then v = nan else exists p, asks_for us "" k p /\ v = latest h p nan).
  assert (ST : forall rd h refs data, in_order us "" (filter (fun k => negb (String.eqb k "")) ks) refs -> Forall2 (P h) ks data ->
     exists l, pull rd (map (fun k => negb (String.eqb k "")) ks) data refs = Some l /\ Forall2 (P (h ++ [rd])) ks l).
  { intros rd h. clear O HA Es. induction ks as [|k ks IH]; intros refs data O F; inversion F as [|? d ? data' Hd F']; subst.
    - exists []. split; [reflexivity|constructor].
    - cbn [filter map] in O |- *. destruct (String.eqb k "") eqn:Ek; cbn [negb] in O |- *.
      + destruct (IH refs data' O F') as (l & E & Q). exists (d :: l). cbn [pull]. rewrite E. split; [reflexivity|]. constructor; [|exact Q].
        unfold P in Hd |- *. rewrite Ek in Hd |- *. exact Hd.
      + inversion O as [|? r ? refs' Hr O']; subst. destruct (IH refs' data' O' F') as (l & E & Q). exists ((match rd r with Some v => v | None => d end) :: l).
        cbn [pull]. rewrite E. split; [reflexivity|]. constructor; [|exact Q]. unfold P in Hd |- *. rewrite Ek in Hd |- *.
        destruct Hd as (p & Hp & ->). exists p. split; [exact Hp|].
        assert (p = r). { destruct Hp as (u & N1 & E1). destruct Hr as (u' & N2 & E2). cbn [requested] in E1, E2. unfold distinct in D. 
          assert (X1 := map_nth_error full_name _ _ N1). assert (X2 := map_nth_error full_name _ _ N2). rewrite E1 in X1. rewrite E2 in X2.
          eapply NoDup_nth_error; [exact D|apply nth_error_Some; congruence|congruence]. }
        subst r. unfold latest. rewrite fold_left_app. reflexivity. }
  assert (GEN : forall h s, s_axes s = map (fun k => negb (String.eqb k "")) ks -> in_order us "" (filter (fun k => negb (String.eqb k "")) ks) (s_refs s) ->
    Forall2 (P h) ks (s_data s) -> exists s', updates rds s = Some s' /\ Forall2 (P (h ++ rds)) ks (s_data s')).
  { clear s Es HA O. induction rds as [|rd rds IH]; intros h s A O F.
    - exists s. rewrite app_nil_r. auto.
    - destruct (ST rd h _ _ O F) as (l & E & Q). cbn [updates]. unfold update_data at 1. rewrite A, E.
      destruct (IH (h ++ [rd]) (set_data s l) A O Q) as (s' & G & Q'). exists s'. split; [exact G|]. rewrite <- app_assoc in Q'. exact Q'. }
  destruct (GEN [] s) as (s' & G & Q); [rewrite Es; reflexivity|exact O| |exists s'; split; [exact G|exact Q]].
  rewrite Es. cbn [set_refs ft_sensor_axes s_data]. clear -O D. unfold P.
  revert O. generalize (s_refs s). induction ks as [|k ks IH]; intros refs O; cbn [List.length repeat]; constructor.
  - destruct (String.eqb k "") eqn:Ek; [reflexivity|]. cbn [filter] in O. rewrite Ek in O. cbn [negb] in O. inversion O; subst. eexists. split; [eassumption|reflexivity].
  - cbn [filter] in O. destruct (String.eqb k ""); cbn [negb] in O; [exact (IH _ O)|inversion O; subst; eapply IH; eassumption].
Qed.
End P.
