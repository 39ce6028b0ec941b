(** EnforceFlag.v -- the answer of the pass *)
From Coq Require Import ZArith Bool List String SpecFloat Lia.
From Verif Require Import Base LimitsModel LimitsSpec LimitsProofs LimitsHist EnforceModel EnforceSpec EnforceProofs EnforceMain.
Import ListNotations.
Open Scope string_scope.
Open Scope list_scope.

Lemma NoDup_aset {A} (m : alist A) k v : NoDup (map fst m) -> NoDup (map fst (aset m k v)).
Proof.
  induction m as [|[k' v'] m IH]; intros H; cbn; [repeat constructor; auto|]. destruct (String.eqb_spec k k') as [->|N]; [exact H|].
  cbn in *. inversion H as [|? ? NI ND]; subst. constructor; [|apply IH; exact ND]. intros I. apply NI. clear -I N.
  induction m as [|[k2 v2] m IH]; cbn in *; [destruct I as [E|[]]; congruence|]. destruct (String.eqb_spec k k2) as [->|]; cbn in I; [exact I|].
  destruct I as [E|I]; [left; exact E|right; auto].
Qed.
Lemma import_joint_nd hi w p : NoDup (map fst (w_lims w)) -> NoDup (map fst (w_lims (import_joint hi w p))).
Proof.
  intros H. unfold import_joint. destruct (limits_enabled _ _); [|exact H]. cbn zeta. destruct (lim_get _ _ _); [exact H|]. cbn. apply NoDup_aset. exact H.
Qed.
Lemma import_nd infos : forall w, NoDup (map fst (w_lims w)) -> NoDup (map fst (w_lims (import_limiters infos w))).
Proof.
  induction infos as [|hi infos IH]; intros w H; [exact H|]. change (import_limiters (hi :: infos) w) with (import_limiters infos (import_hw w hi)). apply IH.
  unfold import_hw. revert w H. generalize (hi_limits hi) as ls. induction ls as [|p ls IHl]; intros w H; cbn; [exact H|]. apply IHl. apply import_joint_nd. exact H.
Qed.
Lemma start_nd infos period : NoDup (map fst (w_lims (start infos period))).
Proof. apply import_nd. constructor. Qed.

(** a joint with at most one limiter *)
Lemma joint_skip hws : forall w j dt acc, (forall hw, In hw hws -> lim_get w hw j = None) -> enforce_joint hws w j dt acc = (w, ROk acc).
Proof.
  induction hws as [|hw hws IH]; intros w j dt acc H; cbn; [reflexivity|]. rewrite (H hw (or_introl eq_refl)). apply IH. intros; apply H; right; assumption.
Qed.
Lemma joint_flag hws : forall w j dt acc w', NoDup hws -> (forall a b, lim_get w a j <> None -> lim_get w b j <> None -> a = b) ->
  enforce_joint hws w j dt acc = (w', ROk false) -> forall n, value w' n = value w n.
Proof.
  induction hws as [|hw hws IH]; intros w j dt acc w' ND U H n; cbn in H; [congruence|]. inversion ND as [|? ? NI ND']; subst.
  destruct (lim_get w hw j) as [m|] eqn:L; [|eapply IH; eauto].
  destruct (run_limiter m _ _ dt) as [p c b|p|] eqn:R; [|discriminate|discriminate].
  pose proof (visit_touch w hw j m _ p c b dt L eq_refl R) as T. apply touch_same_lims in T.
  rewrite joint_skip in H.
  - injection H as <- ->. reflexivity.
  - intros hw' I. rewrite (same_lims_none _ _ hw' j T). destruct (lim_get w hw' j) eqn:L'; [|reflexivity]. exfalso. apply NI.
    assert (hw = hw') by (apply U; congruence). congruence.
Qed.
Lemma all_true order : forall w dt w' r, enforce_all order w dt true = (w', r) -> r <> ROk false.
Proof.
  induction order as [|j order IH]; intros w dt w' r H; cbn in H; [injection H as <- <-; discriminate|].
  destruct (enforce_joint _ w j dt false) as [w1 r1]. destruct r1; [eapply IH; exact H| |]; injection H as <- <-; discriminate.
Qed.
Lemma all_flag order : forall w dt w', NoDup (map fst (w_lims w)) -> (forall j a b, lim_get w a j <> None -> lim_get w b j <> None -> a = b) ->
  enforce_all order w dt false = (w', ROk false) -> forall n, value w' n = value w n.
Proof.
  induction order as [|j order IH]; intros w dt w' ND U H n; cbn in H; [injection H as <-; reflexivity|].
  destruct (enforce_joint _ w j dt false) as [w1 r1] eqn:E. destruct r1 as [b| |]; try discriminate. destruct b; [exfalso; eapply all_true; [exact H|reflexivity]|].
  pose proof (joint_passed _ _ _ _ _ _ _ E) as P. pose proof (pa_li _ _ P) as S.
  rewrite (IH w1 dt w').
  - eapply joint_flag; [exact ND| |exact E]. intros a b. apply U.
  - rewrite (proj1 S). exact ND.
  - intros j' a b A B. apply (U j'); rewrite <- (same_lims_none w w1); eauto.
  - exact H.
Qed.
Lemma main_reports infos period ops order dt w' : 
  (forall j hw hw' l l', gives_limits infos hw j l -> gives_limits infos hw' j l' -> hw = hw') ->
  step (after infos period ops) (OEnforce true order dt) = (w', ROk false) -> forall n, value w' n = value (after infos period ops) n.
Proof.
  intros U H. cbn [step] in H. destruct (run_keeps ops (start infos period)) as [S _]. change (run_ops (start infos period) ops) with (after infos period ops) in S.
  eapply all_flag; [| |exact H].
  - rewrite (proj1 S). apply start_nd.
  - intros j a b A B. rewrite (same_lims_none _ _ _ _ S) in A. rewrite (same_lims_none _ _ _ _ S) in B.
    destruct (lim_get (start infos period) a j) as [ma|] eqn:LA; [|contradiction]. destruct (lim_get (start infos period) b j) as [mb|] eqn:LB; [|contradiction].
    apply start_fresh in LA, LB. destruct LA as (_ & ha & A1 & A2 & A3 & A4 & _), LB as (_ & hb & B1 & B2 & B3 & B4 & _).
    apply (U j a b (m_hard ma) (m_hard mb)); [exists ha|exists hb]; auto.
Qed.
