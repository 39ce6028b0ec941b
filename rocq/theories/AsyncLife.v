(** AsyncLife.v -- the life cycle of an asynchronous component, and the ends of update(). *)
From Coq Require Import List Bool Lia.
From Verif Require Import Base Events AsyncModel AsyncSpec AsyncProofs.
Import ListNotations.

(** ---- specification: the state the life cycle gives for what the callbacks returned.  A callback
    that succeeds leads to its goal; a failing activation, deactivation or configuration leads
    back; a failing on_error ends in FINALIZED; anything else leaves the state to on_error. *)
Definition goal (k : kcb) : lc :=
  match k with
  | KConfigure | KDeactivate => Inactive | KActivate => Active | KShutdown => Finalized | KCleanup | KError => Unconfigured end.
Fixpoint state_of (tr : list ev) : lc :=
  match tr with
  | [] => Unconfigured
  | CbEnd k CbSuccess :: _ => goal k
  | CbEnd KError (CbFailure | CbError) :: _ => Finalized
  | _ :: o => state_of o end.
(** the callbacks' answers that call for on_error *)
Definition errs (k : kcb) (r : cbret) : Prop :=
  k <> KError /\ (r = CbError \/ r = CbFailure /\ (k = KCleanup \/ k = KShutdown)).

Definition P_life s := st_lc s = state_of (st_log s).
Lemma L_life b l : P_life (hrun (hstart b) l).
Proof.
  apply inv_log; [reflexivity|]. intros s a [Hex Hw Hm] H. unfold P_life in *.
  cases s a; cbn in Hex, Hw, Hm, H.
  - destruct k as [| | |r0| | |r0]; cbn; try exact H. destruct (negb sn && lc_eqb l0 Active)%bool; exact H.
  - destruct m; cbn; try exact H; destruct l0; exact H.
  - destruct m; try exact H. destruct (free && negb (busy k))%bool; exact H.
  - destruct m; try exact H. destruct l0; try exact H. destruct sn; exact H.
  - destruct m; try exact H. destruct (enabled kc l0); exact H.
  - destruct m as [| |kk| |]; try exact H. destruct (busy k); [exact H|]. destruct kk; exact H.
  - destruct m as [| | |kk|]; try exact H. destruct kk, cr; cbn in *; try exact H; try reflexivity; rewrite <- H; try (destruct l0; try reflexivity; destruct Hm; discriminate); rewrite ?Hm; reflexivity.
  - destruct m; try exact H; destruct l0; exact H.
  - destruct m; exact H.
Qed.

(** after an answer that calls for on_error the framework does nothing else before it *)
Fixpoint quiet (tr : list ev) : Prop := match tr with [] => True | e :: o => (match e with
   | IoBegin _ _ | IoEnd _ _ => True
   | CbBegin KError _ => True
   | _ => match newest o with Some (CbEnd k r) => ~ (errs k r /\ (state_of o = Inactive \/ state_of o = Active)) | _ => True end end) /\ quiet o end.
Definition P_quiet s := (match newest (st_log s) with Some (CbEnd k r) => errs k r -> (st_lc s = Inactive \/ st_lc s = Active) -> st_mg s = MPausing KError | _ => True end) /\ quiet (st_log s).
Lemma errs_to k r l : errs k r -> allowed k l -> result k r = ToError.
Proof. intros [N [-> | [-> [-> | ->]]]] A; [destruct k; try reflexivity; contradiction|reflexivity|reflexivity]. Qed.
Lemma newest_io c r tr : newest (IoEnd c r :: tr) = newest tr. Proof. reflexivity. Qed.
Lemma L_quiet b l : P_quiet (hrun (hstart b) l).
Proof.
  assert (G : forall s a, A s -> P_life s -> P_quiet s -> P_quiet (hstep s a)).
  { intros s a [Hex Hw Hm] HL H0. pose proof H0 as [Hn Hq]. unfold P_quiet, P_life in *.
    cases s a; cbn in Hex, Hw, Hm, HL, Hn, Hq |- *.
    - destruct k as [| | |r0| | |r0]; cbn; try (split; [exact Hn|auto]; fail).
      destruct (negb sn && lc_eqb l0 Active)%bool; (split; [exact Hn|cbn; auto]).
    - destruct m; cbn; try exact H0; destruct l0; try exact H0; (split; [|exact Hq]); cbn;
        destruct (newest tr) as [[]|]; auto; intros E K; specialize (Hn E K); discriminate.
    - destruct m; try exact H0. destruct (free && negb (busy k))%bool; (split; [exact I|]); cbn; (split; [|exact Hq]);
        destruct (newest tr) as [[]|]; auto; intros [E K]; rewrite <- HL in K; specialize (Hn E K); discriminate.
    - destruct m; try exact H0; destruct l0; try exact H0; destruct sn; try exact H0. (split; [exact I|]); cbn; (split; [|exact Hq]);
        destruct (newest tr) as [[]|]; auto; intros [E K]; rewrite <- HL in K; specialize (Hn E K); discriminate.
    - destruct m; try exact H0; destruct (enabled kc l0); try exact H0. (split; [|exact Hq]). cbn.
      destruct (newest tr) as [[]|]; auto; intros E K; specialize (Hn E K); discriminate.
    - destruct m as [| |kk| |]; try exact H0. destruct (busy k); [exact H0|].
      assert (X : match newest tr with Some (CbEnd k r) => kk = KError \/ ~ (errs k r /\ (state_of tr = Inactive \/ state_of tr = Active)) | _ => True end).
      { destruct (newest tr) as [[]|]; auto. destruct (l0) eqn:El; try (right; intros [_ [K|K]]; rewrite <- HL in K; discriminate).
        - destruct kk; auto; right; intros [E K]; specialize (Hn E (or_introl eq_refl)); discriminate.
        - destruct kk; auto; right; intros [E K]; specialize (Hn E (or_intror eq_refl)); discriminate. }
      destruct kk; cbn; (split; [exact I|]); (split; [|exact Hq]); auto; destruct (newest tr) as [[]|]; auto; destruct X as [X|X]; auto; discriminate.
    - destruct m as [| | |kk|]; try exact H0.
      assert (X : match newest tr with Some (CbEnd k r) => ~ (errs k r /\ (state_of tr = Inactive \/ state_of tr = Active)) | _ => True end).
      { destruct (newest tr) as [[]|]; auto; intros [E K]; rewrite <- HL in K; specialize (Hn E K); discriminate. }
      destruct (result kk cr) eqn:ER; cbn.
      + split; [|split; [exact X|exact Hq]]. intros E K. rewrite (errs_to kk cr l0 E Hm) in ER. discriminate.
      + split; [|split; [exact X|exact Hq]]. intros E [-> | ->]; reflexivity.
      + split; [|split; [exact X|exact Hq]]. intros E K. rewrite (errs_to kk cr l0 E Hm) in ER. discriminate.
    - destruct m; try exact H0; destruct l0; try exact H0; (split; [exact I|]); cbn; (split; [|exact Hq]);
        destruct (newest tr) as [[]|]; auto; intros [E K]; rewrite <- HL in K; specialize (Hn E K); discriminate.
    - destruct m; try exact H0; (split; [exact I|]); cbn; (split; [|exact Hq]);
        destruct (newest tr) as [[]|]; auto; intros [E K]; rewrite <- HL in K; specialize (Hn E K); discriminate. }
  assert (Q : (fun s => A s /\ P_life s /\ P_quiet s) (hrun (hstart b) l)).
  { induction l as [|a l IH] using rev_ind; [split; [apply A_start|split; [reflexivity|split; [exact I|exact I]]]|].
    unfold hrun in *. rewrite fold_left_app. cbn [fold_left]. destruct IH as (I1 & I2 & I3).
    split; [apply A_step; exact I1|split; [|apply G; assumption]].
    pose proof (L_life b (l ++ [a])) as K. unfold hrun in K. rewrite fold_left_app in K. exact K. }
  exact (proj2 (proj2 Q)).
Qed.
Lemma quiet_app n o : quiet (n ++ o) -> quiet o.
Proof. induction n as [|x n IH]; [auto|]. intros [_ H]. exact (IH H). Qed.
Lemma quiet_next n : forall k r o, quiet (n ++ CbEnd k r :: o) -> errs k r ->
  (state_of (CbEnd k r :: o) = Inactive \/ state_of (CbEnd k r :: o) = Active) ->
  next_event n = None \/ exists c, next_event n = Some (CbBegin KError c).
Proof.
  induction n as [|x n IH]; intros k r o H E K; [left; reflexivity|].
  destruct H as [Hx H]. specialize (IH k r o H E K). unfold next_event in *. cbn [filter].
  destruct (framework x) eqn:Ex; [|exact IH]. cbn [rev]. destruct (rev (filter framework n)) as [|y ys] eqn:Er; [|exact IH]. cbn.
  assert (EF : filter framework n = []) by (rewrite <- (rev_involutive (filter framework n)), Er; reflexivity).
  assert (NW : newest (n ++ CbEnd k r :: o) = Some (CbEnd k r)) by (unfold newest; rewrite filter_app, EF; reflexivity).
  assert (ST : state_of (n ++ CbEnd k r :: o) = state_of (CbEnd k r :: o)).
  { clear -EF. induction n as [|x n IH]; [reflexivity|]. cbn [filter] in EF. destruct x; cbn in EF; try discriminate EF; apply IH; exact EF. }
  rewrite NW, ST in Hx. right.
  destruct x as [| |k0 c0| | | | |]; try discriminate Ex; try (exfalso; apply Hx; auto; fail).
  destruct k0; try (exfalso; apply Hx; auto; fail). exists c0. reflexivity.
Qed.
Theorem life_l b l : st_lc (hrun (hstart b) l) = state_of (st_log (hrun (hstart b) l)).
Proof. exact (L_life b l). Qed.
Theorem error_next_l b l n k r o : st_log (hrun (hstart b) l) = n ++ CbEnd k r :: o -> errs k r ->
  state_of o = Inactive \/ state_of o = Active ->
  next_event n = None \/ exists c, next_event n = Some (CbBegin KError c).
Proof.
  intros E X K. pose proof (proj2 (L_quiet b l)) as Q. rewrite E in Q. apply (quiet_next n k r o Q X).
  destruct X as [X [-> |[-> Y]]]; destruct k; cbn; auto; contradiction.
Qed.

(** ---- controllers *)
Fixpoint matched (tr : list cev) : Prop := match tr with [] => True | e :: o => (e = UEnd -> upd_open o = true) /\ matched o end.
Definition P_m s := (ct_run s = true -> upd_open (ct_log s) = true) /\ matched (ct_log s).
Lemma m_step s a : P_m s -> P_m (cstep s a).
Proof.
  intros H0; pose proof H0 as [H M]. destruct s as [ac k r lp v e]; cbn in H, M. unfold P_m.
  destruct a as [| |free| | | | | | |ok|]; cbn [cstep ct_active ct_skip ct_run ct_lp ct_sv ct_log].
  - destruct r; [|exact H0]. cbn. split; [discriminate|]. split; [intros _; apply H; reflexivity|exact M].
  - destruct lp, v; try exact H0; destruct ac; try exact H0; destruct k; cbn; (split; [exact H|]); auto; (split; [discriminate|exact M]).
  - destruct lp; try exact H0. destruct (free && negb r)%bool; cbn; (split; [|split; [discriminate|exact M]]); auto.
  - destruct v; try exact H0. destruct ac; try exact H0; (split; [exact H|exact M]).
  - destruct v; try exact H0; destruct r; try exact H0; (split; [exact H|exact M]).
  - destruct v; try exact H0; cbn; (split; [exact H|split; [discriminate|exact M]]).
  - destruct v; try exact H0; (split; [exact H|exact M]).
  - destruct lp; try exact H0; destruct v; try exact H0; destruct ac; cbn; (split; [exact H|]); auto; (split; [discriminate|exact M]).
  - destruct lp; try exact H0; destruct ac; try exact H0; cbn; (split; [exact H|split; [discriminate|exact M]]).
  - destruct lp; try exact H0; cbn; (split; [exact H|split; [discriminate|exact M]]).
  - destruct lp; try exact H0; destruct ac; try exact H0; cbn; (split; [exact H|split; [discriminate|exact M]]).
Qed.
Theorem update_ends_l l n o : ct_log (crun cstart l) = n ++ UEnd :: o -> upd_open o = true.
Proof.
  intros E. assert (H : P_m (crun cstart l)) by (apply crun_inv; [apply m_step|split; [discriminate|exact I]]).
  destruct H as [_ H]. rewrite E in H. clear E. induction n as [|x n IH]; [exact (proj1 H eq_refl)|]. exact (IH (proj2 H)).
Qed.
Theorem revived_l l : let s := crun cstart l in
  ct_active s = false -> ct_lp s = LRest -> ct_run s = false -> ct_sv s <> SRequested ->
  ct_log (crun s [CActivate; CLoad; CTrigger true]) = UBegin :: Activated :: ct_log s.
Proof.
  cbn zeta. destruct (crun cstart l) as [ac k r lp v e]. cbn. intros -> -> -> N. destruct v; try reflexivity. contradiction.
Qed.
