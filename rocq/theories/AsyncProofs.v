(** AsyncProofs.v -- proofs for Props_Async.v *)
From Coq Require Import List Bool Lia.
From Verif Require Import Base Events AsyncModel AsyncSpec.
Import ListNotations.

Lemma hrun_inv (P : hst -> Prop) : (forall s a, P s -> P (hstep s a)) -> forall l s, P s -> P (hrun s l).
Proof. intros H l; induction l as [|a l IH]; intros s Hs; [exact Hs|]. cbn. apply IH, H, Hs. Qed.
Lemma crun_inv (P : cst -> Prop) : (forall s a, P s -> P (cstep s a)) -> forall l s, P s -> P (crun s l).
Proof. intros H l; induction l as [|a l IH]; intros s Hs; [exact Hs|]. cbn. apply IH, H, Hs. Qed.


(** the states of the two threads *)
Record A (s : hst) : Prop := {
  a_excl : st_wk s <> WIdle -> (st_lc s = Inactive \/ st_lc s = Active) /\ match st_mg s with MIn _ => False | _ => True end;
  a_wlc : (match st_wk s with WInWrite | WGotWrite _ => True | _ => False end) -> st_lc s = Active /\ st_sensor s = false;
  a_ml : match st_mg s with MLoaded _ => st_lc s = Inactive \/ st_lc s = Active | MPausing k | MIn k => allowed k (st_lc s) | _ => True end
}.
Lemma enabled_allowed k l : enabled k l = true -> allowed k l.
Proof. destruct k, l; cbn; intros; try discriminate; auto. Qed.
Lemma A_start b : A (hstart b).
Proof. split; cbn; [congruence|intros []|exact I]. Qed.
Lemma notidle k : busy k = false -> k = WIdle.
Proof. destruct k; cbn; congruence. Qed.
Ltac cases s a :=
  let l := fresh "l" in let sn := fresh "sn" in let r := fresh "r" in let w := fresh "w" in let k := fresh "k" in let m := fresh "m" in let tr := fresh "tr" in
  destruct s as [l sn r w k m tr]; destruct a as [q| |free| |kc| |cr| |]; unfold hstep, work; cbn [st_lc st_sensor st_r st_w st_wk st_mg st_log].
Ltac ez := cbn in *; try assumption; try reflexivity; try congruence; try discriminate; auto.
Lemma A_step s a : A s -> A (hstep s a).
Proof.
  intros I0; pose proof I0 as [Hex Hw Hm]. cases s a; cbn in Hex, Hw, Hm.
  - destruct k as [| | |r0| | |r0]; try exact I0.
    + destruct (Hex ltac:(discriminate)) as [H1 H2]. split; ez; try (intros []).
    + destruct (Hex ltac:(discriminate)) as [H1 H2]. split; ez; try (intros []).
    + destruct (Hex ltac:(discriminate)) as [H1 H2]. destruct r0; split; ez; try (intros []).
    + destruct (Hex ltac:(discriminate)) as [H1 H2]. destruct sn; [split; ez; try (intros [])|].
      destruct l; split; ez; try (intros []).
    + destruct (Hex ltac:(discriminate)) as [H1 H2]. split; ez.
    + destruct (Hex ltac:(discriminate)) as [H1 H2]. split; ez; try (intros []).
  - destruct m; try exact I0. destruct l; try exact I0; (split; ez; try (intros Hn; destruct (Hex Hn); auto)).
  - destruct m; try exact I0. destruct (free && negb (busy k))%bool eqn:Eb.
    + assert (k = WIdle) as -> by (apply notidle; destruct free, (busy k); cbn in Eb; congruence).
      cbn in Hm. destruct r0; split; ez; try (intros []); try (destruct Hm; auto).
    + split; ez; try (intros Hn; destruct (Hex Hn); auto).
  - destruct m; try exact I0. destruct l; try exact I0. destruct sn; [exact I0|].
    destruct w; split; ez; try (intros Hn; destruct (Hex Hn); auto).
  - destruct m; try exact I0. destruct (enabled kc l) eqn:Ee; [|exact I0]. apply enabled_allowed in Ee.
    split; ez; try (intros Hn; destruct (Hex Hn); auto).
  - destruct m as [| |kk| |]; try exact I0. destruct (busy k) eqn:Eb; [exact I0|]. apply notidle in Eb; subst k.
    destruct kk; split; ez; try (intros []).
  - destruct m as [| | |kk|]; try exact I0.
    assert (k = WIdle) as -> by (destruct k; try reflexivity; destruct (Hex ltac:(discriminate)) as [_ []]).
    destruct kk, cr, l; cbn in Hm |- *; (split; ez; try (intros [])).
  - destruct m; try exact I0. destruct l; try exact I0; (split; ez; try (intros Hn; destruct (Hex Hn); auto)).
  - destruct m; try exact I0. split; ez; try (intros Hn; destruct (Hex Hn); auto).
Qed.
Lemma A_run b l : A (hrun (hstart b) l).
Proof. apply hrun_inv; [apply A_step|apply A_start]. Qed.

(** an invariant of the log that depends on the state *)
Lemma inv_log (P : hst -> Prop) b l : P (hstart b) -> (forall s a, A s -> P s -> P (hstep s a)) -> P (hrun (hstart b) l).
Proof.
  intros H0 Hs. assert (H : A (hrun (hstart b) l) /\ P (hrun (hstart b) l)); [|apply H].
  apply (hrun_inv (fun s => A s /\ P s)); [|split; [apply A_start|exact H0]].
  intros s a [Ha Hp]; split; [apply A_step; exact Ha|apply Hs; assumption].
Qed.
Ltac walk s a :=
  cases s a;
  [ match goal with k : worker |- _ => destruct k as [| | |[]| | |[]] end;
    try match goal with q : rtype |- _ => destruct q end;
    try match goal with sn : bool |- _ => destruct sn end; try match goal with l : lc |- _ => destruct l end
  | match goal with m : mgr |- _ => destruct m as [| | | |] end; try match goal with l : lc |- _ => destruct l end
  | match goal with m : mgr |- _ => destruct m as [|[]| | |] end; try match goal with free : bool, k : worker |- _ => destruct free, k as [| | |[]| | |[]] end
  | match goal with m : mgr |- _ => destruct m as [| | | |] end; try match goal with l : lc, sn : bool, w : rtype |- _ => destruct l, sn, w end
  | match goal with m : mgr |- _ => destruct m as [| | | |] end; try match goal with kc : kcb, l : lc |- _ => destruct kc, l end
  | match goal with m : mgr |- _ => destruct m as [| |[]| |] end; try match goal with k : worker |- _ => destruct k as [| | |[]| | |[]] end
  | match goal with m : mgr |- _ => destruct m as [| | |[]|] end; try match goal with cr : cbret, l : lc |- _ => destruct cr, l end
  | match goal with m : mgr |- _ => destruct m as [| | | |] end; try match goal with l : lc |- _ => destruct l end
  | match goal with m : mgr |- _ => destruct m as [| | | |] end ].

Definition P_rd s := io_open Read (st_log s) = match st_wk s with WInRead => true | _ => false end.
Definition P_wr s := io_open Write (st_log s) = match st_wk s with WInWrite => true | _ => false end.
Definition P_cb s := cb_open (st_log s) = match st_mg s with MIn _ => true | _ => false end.
Lemma L_rd b l : P_rd (hrun (hstart b) l).
Proof. apply inv_log; [reflexivity|]. intros s a _ H. unfold P_rd in *. walk s a; cbn in *; try exact H; try reflexivity. Qed.
Lemma L_wr b l : P_wr (hrun (hstart b) l).
Proof. apply inv_log; [reflexivity|]. intros s a _ H. unfold P_wr in *. walk s a; cbn in *; try exact H; try reflexivity. Qed.
Lemma L_cb b l : P_cb (hrun (hstart b) l).
Proof. apply inv_log; [reflexivity|]. intros s a _ H. unfold P_cb in *. walk s a; cbn in *; try exact H; try reflexivity. Qed.

Definition okev (sn : bool) (e : ev) : Prop :=
  match e with
  | IoBegin Read l => l = Inactive \/ l = Active | IoBegin Write l => l = Active /\ sn = false
  | CbBegin k l => allowed k l | _ => True end.
Definition P_log s := Forall (okev (st_sensor s)) (st_log s).
Lemma L_log b l : P_log (hrun (hstart b) l).
Proof.
  apply inv_log; [constructor|]. intros s a [Hex Hw Hm] H. unfold P_log in *.
  cases s a; cbn in Hex, Hw, Hm, H.
  - destruct k as [| | |[]| | |[]]; cbn; try exact H; try (constructor; [|exact H]); cbn; auto.
    + apply Hex; discriminate.
    + destruct sn; [exact H|]. destruct l0; try exact H. constructor; [|exact H]. cbn; auto.
  - destruct m, l0; exact H.
  - destruct m; try exact H. destruct (free && negb (busy k))%bool; constructor; cbn; auto.
  - destruct m; try exact H. destruct l0; try exact H. destruct sn; [exact H|]. constructor; cbn; auto.
  - destruct m; try exact H. destruct (enabled kc l0); exact H.
  - destruct m as [| |kk| |]; try exact H. destruct (busy k); [exact H|]. destruct kk; constructor; cbn in *; auto.
  - destruct m as [| | |kk|]; try exact H. destruct (result kk cr); constructor; cbn; auto.
  - destruct m; try exact H; destruct l0; try exact H; constructor; cbn; auto.
  - destruct m; try exact H; constructor; cbn; auto.
Qed.

Definition started (k : worker) : nat := match k with WStarted => 1 | _ => 0 end.
Definition owes (k : worker) : nat := match k with WGotRead ROk | WStored => 1 | _ => 0 end.
Definition P_acc s := counts accepted (st_log s) = counts (begins Read) (st_log s) + started (st_wk s).
Lemma L_acc b l : P_acc (hrun (hstart b) l).
Proof.
  apply inv_log; [reflexivity|]. intros s a _ H. unfold P_acc, counts in *. walk s a; cbn in *; try exact H; try lia.
Qed.
Definition P_wc s := counts (begins Write) (st_log s) + owes (st_wk s) <= counts good_read (st_log s).
Lemma L_wc b l : P_wc (hrun (hstart b) l).
Proof.
  apply inv_log; [unfold P_wc, counts; cbn; lia|]. intros s a _ H. unfold P_wc, counts in *. walk s a; cbn in *; try exact H; try lia.
Qed.
Definition P_lr s := last_io Read (st_log s) = match st_wk s with WGotRead r => r | _ => st_r s end.
Lemma L_lr b l : P_lr (hrun (hstart b) l).
Proof. apply inv_log; [reflexivity|]. intros s a _ H. unfold P_lr in *. walk s a; cbn in *; try exact H; try reflexivity. Qed.
Definition P_lw s := last_io Write (st_log s) = match st_wk s with WGotWrite r => r | _ => st_w s end.
Lemma L_lw b l : P_lw (hrun (hstart b) l).
Proof. apply inv_log; [reflexivity|]. intros s a _ H. unfold P_lw in *. walk s a; cbn in *; try exact H; try reflexivity. Qed.

(** stored results come from user code *)
Record P_src (s : hst) : Prop := {
  s_r : st_r s <> ROk -> In (IoEnd Read (st_r s)) (st_log s);
  s_w : st_w s <> ROk -> In (IoEnd Write (st_w s)) (st_log s);
  s_k : match st_wk s with WGotRead r => In (IoEnd Read r) (st_log s) | WGotWrite r => In (IoEnd Write r) (st_log s) | _ => True end;
  s_m : match st_mg s with MLoaded r => r <> ROk -> In (IoEnd Read r) (st_log s) | _ => True end }.
Fixpoint sound (tr : list ev) : Prop :=
  match tr with
  | [] => True
  | e :: o => match e with ReadAns a r => r <> ROk -> a = true /\ In (IoEnd Read r) o | WriteAns r => r <> ROk -> In (IoEnd Write r) o | _ => True end /\ sound o end.
Definition P_snd s := P_src s /\ sound (st_log s).
Lemma L_snd b l : P_snd (hrun (hstart b) l).
Proof.
  apply inv_log; [split; [split; cbn; auto; congruence|exact I]|]. intros s a _ H0. pose proof H0 as [[Hr Hw Hk Hm] Hs].
  unfold P_snd. cases s a; cbn in Hr, Hw, Hk, Hm, Hs.
  - destruct k as [| | |[]| | |[]]; cbn; try (destruct sn; cbn; [|destruct l0; cbn]);
      (split; [split; cbn; auto; try congruence|cbn; auto]); destruct m; cbn; auto.
  - destruct m; try exact H0; destruct l0; try exact H0; (split; [split; cbn; auto|exact Hs]).
  - destruct m; try exact H0. destruct (free && negb (busy k))%bool; cbn; (split; [split; cbn; auto; try (destruct k; cbn; auto); try (destruct (isok r0); exact I)|cbn; split; [|exact Hs]]); try congruence.
    intros Hn. split; [reflexivity|auto].
  - destruct m; try exact H0; destruct l0; try exact H0; destruct sn; try exact H0.
    split; [split; cbn; auto; try (destruct k; cbn; auto); try (destruct w; exact I)|cbn; split; [auto|exact Hs]].
  - destruct m; try exact H0; destruct (enabled kc l0); try exact H0. split; [split; cbn; auto|exact Hs].
  - destruct m as [| |kk| |]; try exact H0. destruct (busy k); [exact H0|].
    destruct kk; (split; [split; cbn; auto; try (destruct k; cbn; auto); try congruence|cbn; auto]).
  - destruct m as [| | |kk|]; try exact H0.
    destruct (result kk cr); (split; [split; cbn; auto; try (destruct k; cbn; auto); try (destruct l0; exact I)|cbn; auto]).
  - destruct m; try exact H0; destruct l0; try exact H0; (split; [split; cbn; auto; try (destruct k; cbn; auto)|cbn; auto]).
  - destruct m; try exact H0; (split; [split; cbn; auto; try (destruct k; cbn; auto)|cbn; auto]).
Qed.
Lemma sound_at tr : sound tr -> forall n e o, tr = n ++ e :: o ->
  match e with ReadAns a r => r <> ROk -> a = true /\ In (IoEnd Read r) o | WriteAns r => r <> ROk -> In (IoEnd Write r) o | _ => True end.
Proof.
  induction tr as [|x tr IH]; intros Hs n e o E; [destruct n; discriminate|].
  destruct n as [|y n]; cbn in E; injection E as -> ->; [apply Hs|]. apply (IH (proj2 Hs) n e o eq_refl).
Qed.

(** what follows an answer *)
Definition newest (tr : list ev) : option ev := hd_error (filter framework tr).
Definition must (e : ev) : option kcb :=
  match e with
  | ReadAns _ RError | ReadAns _ RDeactivate | WriteAns RError => Some KError
  | WriteAns RDeactivate => Some KDeactivate
  | _ => None end.
Definition follows (p : option ev) (e : ev) : Prop :=
  match p with Some a => match must a with Some k => exists l, e = CbBegin k l | None => True end | None => True end.
Fixpoint chained (tr : list ev) : Prop :=
  match tr with [] => True | e :: o => (framework e = true -> follows (newest o) e) /\ chained o end.
Definition P_nx s := match newest (st_log s) with Some a => match must a with Some k => st_mg s = MPausing k | None => True end | None => True end
  /\ chained (st_log s).
Lemma mustM tr m : (match newest tr with Some a => match must a with Some k => m = MPausing k | None => True end | None => True end) ->
  (forall k, m <> MPausing k) -> forall e, follows (newest tr) e.
Proof. intros H Hn e. unfold follows. destruct (newest tr) as [x|]; [|exact I]. destruct (must x) as [k|]; [|exact I]. destruct (Hn k H). Qed.
Lemma L_nx b l : P_nx (hrun (hstart b) l).
Proof.
  apply inv_log; [split; exact I|]. intros s a _ H0. pose proof H0 as [Hn Hc]. unfold P_nx.
  cases s a; cbn in Hn, Hc.
  - destruct k as [| | |[]| | |[]]; cbn; try exact H0; try (split; [exact Hn|]; try exact Hc; split; [discriminate|exact Hc]).
    destruct sn; cbn; [exact H0|]. destruct l0; try exact H0. cbn. split; [exact Hn|]. split; [discriminate|exact Hc].
  - destruct m; try exact H0; destruct l0; try exact H0; (split; [|exact Hc]); cbn;
      (destruct (newest tr) as [x|]; [|exact I]; destruct (must x); [discriminate|exact I]).
  - destruct m; try exact H0. pose proof (mustM _ _ Hn ltac:(discriminate)) as Hf.
    destruct (free && negb (busy k))%bool; cbn; (split; [destruct r0; try reflexivity; exact I|]); (split; [intros _; apply Hf|exact Hc]).
  - destruct m; try exact H0; destruct l0; try exact H0; destruct sn; try exact H0.
    pose proof (mustM _ _ Hn ltac:(discriminate)) as Hf. cbn. split; [destruct w; try reflexivity; exact I|]. split; [intros _; apply Hf|exact Hc].
  - destruct m; try exact H0; destruct (enabled kc l0); try exact H0. split; [|exact Hc]. cbn.
    (destruct (newest tr) as [x|]; [|exact I]; destruct (must x); [discriminate|exact I]).
  - destruct m as [| |kk| |]; try exact H0. destruct (busy k); [exact H0|].
    assert (Hf : follows (newest tr) (CbBegin kk l0)).
    { unfold follows. destruct (newest tr) as [x|]; [|exact I]. destruct (must x) as [k1|]; [|exact I]. injection Hn as ->. exists l0; reflexivity. }
    destruct kk; cbn; (split; [exact I|]; split; [intros _; exact Hf|exact Hc]).
  - destruct m as [| | |kk|]; try exact H0. pose proof (mustM _ _ Hn ltac:(discriminate)) as Hf.
    destruct (result kk cr); cbn; (split; [exact I|]; split; [intros _; apply Hf|exact Hc]).
  - destruct m; try exact H0; destruct l0; try exact H0; pose proof (mustM _ _ Hn ltac:(discriminate)) as Hf; cbn; (split; [exact I|]; split; [intros _; apply Hf|exact Hc]).
  - destruct m; try exact H0; pose proof (mustM _ _ Hn ltac:(discriminate)) as Hf; cbn; (split; [exact I|]; split; [intros _; apply Hf|exact Hc]).
Qed.
Lemma chained_next n : forall a o, chained (n ++ a :: o) -> framework a = true ->
  match next_event n with Some e => follows (Some a) e | None => True end.
Proof.
  induction n as [|x n IH]; intros a o Hc Ha; [exact I|].
  destruct Hc as [Hx Hc]. specialize (IH a o Hc Ha). unfold next_event in *. cbn. destruct (framework x) eqn:Ex; [|exact IH].
  cbn. destruct (rev (filter framework n)) as [|y ys] eqn:Er; cbn; [|exact IH].
  specialize (Hx eq_refl). assert (E : filter framework n = []) by (rewrite <- (rev_involutive (filter framework n)), Er; reflexivity).
  unfold newest in Hx. rewrite filter_app, E in Hx. cbn in Hx. rewrite Ha in Hx. exact Hx.
Qed.

(** ---- main lemmas *)
Theorem no_overlap_l b l c : let tr := st_log (hrun (hstart b) l) in io_open c tr = true -> cb_open tr = false.
Proof.
  cbn. intros H. rewrite (L_cb b l). destruct (A_run b l) as [Hex _ _].
  assert (Hk : st_wk (hrun (hstart b) l) <> WIdle).
  { destruct c; [rewrite (L_rd b l) in H|rewrite (L_wr b l) in H]; intros E; rewrite E in H; discriminate. }
  destruct (Hex Hk) as [_ Hm]. destruct (st_mg (hrun (hstart b) l)); try reflexivity. destruct Hm.
Qed.
Theorem states_l b l : Forall (okev b) (st_log (hrun (hstart b) l)).
Proof.
  pose proof (L_log b l) as H. unfold P_log in H.
  assert (E : st_sensor (hrun (hstart b) l) = b); [|rewrite E in H; exact H].
  clear H. apply (hrun_inv (fun s => st_sensor s = b)); [|reflexivity]. intros s a Hs. rewrite <- Hs. clear Hs.
  walk s a; reflexivity.
Qed.
Theorem unchanged_l b l : let s := hrun (hstart b) l in
  (io_open Read (st_log s) = true -> st_lc s = Inactive \/ st_lc s = Active) /\ (io_open Write (st_log s) = true -> st_lc s = Active).
Proof.
  cbn. destruct (A_run b l) as [Hex Hw _]. rewrite (L_rd b l), (L_wr b l).
  destruct (st_wk (hrun (hstart b) l)) eqn:E; split; try discriminate; intros _; [apply Hex; discriminate|apply Hw; exact I].
Qed.
Theorem counts_l b l : let tr := st_log (hrun (hstart b) l) in
  counts (begins Read) tr <= counts accepted tr <= S (counts (begins Read) tr) /\ counts (begins Write) tr <= counts good_read tr /\
  (st_wk (hrun (hstart b) l) = WIdle -> counts (begins Read) tr = counts accepted tr).
Proof.
  cbn. pose proof (L_acc b l) as H1. pose proof (L_wc b l) as H2. unfold P_acc, P_wc in *. repeat split; try lia.
  - destruct (st_wk (hrun (hstart b) l)); cbn in *; lia.
  - intros E. rewrite E in H1. cbn in H1. lia.
Qed.
Theorem read_reported_l b l : let s := hrun (hstart b) l in at_rest s -> st_lc s = Inactive \/ st_lc s = Active ->
  st_log (hrun s [AReadLoad; ATrigger true]) = ReadAns true (last_io Read (st_log s)) :: st_log s.
Proof.
  cbn zeta. intros [Hw Hm] Hl. rewrite (L_lr b l), Hw. destruct (hrun (hstart b) l) as [lc0 sn r w k m tr]. cbn in *. subst.
  destruct Hl as [-> | ->]; reflexivity.
Qed.
Theorem write_reported_l l : let s := hrun (hstart false) l in at_rest s -> st_lc s = Active ->
  st_log (hrun s [AWriteAns]) = WriteAns (last_io Write (st_log s)) :: st_log s.
Proof.
  cbn zeta. intros [Hw Hm] Hl. rewrite (L_lw false l), Hw.
  assert (E : st_sensor (hrun (hstart false) l) = false).
  { apply (hrun_inv (fun s => st_sensor s = false)); [|reflexivity]. intros s a Hs. rewrite <- Hs. clear Hs. walk s a; reflexivity. }
  destruct (hrun (hstart false) l) as [lc0 sn r w k m tr]. cbn in *. subst. reflexivity.
Qed.
Theorem invented_l b l n e o : st_log (hrun (hstart b) l) = n ++ e :: o ->
  match e with ReadAns a r => r <> ROk -> a = true /\ In (IoEnd Read r) o | WriteAns r => r <> ROk -> In (IoEnd Write r) o | _ => True end.
Proof. intros E. apply (sound_at _ (proj2 (L_snd b l)) n e o E). Qed.
Lemma must_demands a k : demands a k -> must a = Some k.
Proof. destruct a; cbn; try tauto. - intros [H ->]; destruct r; congruence. - intros [[-> ->]|[-> ->]]; reflexivity. Qed.
Theorem next_l b l n a o k : st_log (hrun (hstart b) l) = n ++ a :: o -> demands a k ->
  next_event n = None \/ exists c, next_event n = Some (CbBegin k c).
Proof.
  intros E Hm%must_demands. pose proof (proj2 (L_nx b l)) as Hc. rewrite E in Hc.
  assert (Hf : framework a = true) by (destruct a; try discriminate; reflexivity).
  pose proof (chained_next n a o Hc Hf) as H. destruct (next_event n) as [e|]; [|left; reflexivity].
  right. unfold follows in H. rewrite Hm in H. destruct H as [c ->]. exists c; reflexivity.
Qed.

(** ---- controllers *)
Record C (s : cst) : Prop := {
  c_up : upd_open (ct_log s) = ct_run s;
  c_de : deact_open (ct_log s) = match ct_lp s with LDeact _ => true | _ => false end;
  c_ac : active_of (ct_log s) = ct_active s;
  c_lp : ct_lp s <> LRest -> ct_active s = true }.
Ltac cwalk s a := destruct s as [ac k r lp v tr]; destruct a as [| |free| | | | | | |ok|]; cbn in *;
  try destruct lp as [| |[]]; try destruct v; try destruct ac; try destruct k; try destruct r; try destruct free; try destruct ok; cbn in *.
Lemma C_step s a : C s -> C (cstep s a).
Proof. intros [H1 H2 H3 H4]. cwalk s a; split; cbn; try assumption; try reflexivity; try discriminate; try congruence; auto; try (specialize (H4 ltac:(discriminate)); congruence). Qed.
Lemma C_run l : C (crun cstart l).
Proof. apply crun_inv; [apply C_step|]. split; cbn; congruence. Qed.
Fixpoint begun (tr : list cev) : Prop := match tr with [] => True | e :: o => (e = UBegin -> active_of o = true /\ upd_open o = false) /\ begun o end.
Lemma begun_run l : begun (ct_log (crun cstart l)).
Proof.
  assert (H : C (crun cstart l) /\ begun (ct_log (crun cstart l))); [|apply H].
  apply (crun_inv (fun s => C s /\ begun (ct_log s))); [|split; [apply (C_run [])|exact I]].
  intros s a [Hc Hb]. split; [apply C_step; exact Hc|]. destruct Hc as [H1 H2 H3 H4].
  destruct s as [ac k r lp v tr]; destruct a as [| |free| | | | | | |ok|]; cbn in *;
  try destruct lp as [| |[]]; try destruct v; try destruct ac; try destruct k; try destruct r; try destruct free; try destruct ok; cbn in *;
    try exact Hb; (split; [|exact Hb]); try discriminate; intros _; (split; [rewrite H3; first [reflexivity|apply H4; discriminate]|assumption]).
Qed.
Theorem begun_l l n o : ct_log (crun cstart l) = n ++ UBegin :: o -> active_of o = true /\ upd_open o = false.
Proof.
  pose proof (begun_run l) as H. intros E. rewrite E in H. clear E. induction n as [|x n IH]; cbn in H; [apply H; reflexivity|].
  apply IH, H.
Qed.
Record Q (s : cst) : Prop := {
  q_sv : ct_sv s <> SRest -> ct_skip s = true /\ ct_lp s <> LPassed /\ ct_active s = true /\ (ct_sv s <> SWaits -> ct_run s = false);
  q_de : forall b, ct_lp s = LDeact b -> b = true /\ ct_sv s = SRequested /\ ct_skip s = true /\ ct_run s = false /\ ct_active s = true }.
Lemma Q_step s a : a <> CFail -> (a = CPrepare -> ct_lp s <> LPassed) -> Q s -> Q (cstep s a).
Proof.
  intros Ha Hp [H1 H2]. destruct s as [ac k r lp v tr]; destruct a as [| |free| | | | | | |ok|]; cbn in *; try congruence;
  try destruct lp as [| |[]]; try destruct v; try destruct ac; try destruct k; try destruct r; try destruct free; try destruct ok; cbn in *;
   try (destruct (H1 ltac:(discriminate)) as (?&?&?&?)); try (exfalso; apply (Hp eq_refl); reflexivity); try (destruct (H2 _ eq_refl) as (?&?&?&?&?)); try congruence;
   split; cbn; intros; try congruence; try (repeat split; congruence || (intros; congruence)); try (repeat split; auto; congruence);
   try (match goal with H : _ <> _ -> true = false |- _ => specialize (H ltac:(discriminate)); discriminate end).
Qed.
Theorem no_overlap_c l : undivided cstart l -> let tr := ct_log (crun cstart l) in upd_open tr = true -> deact_open tr = false.
Proof.
  intros Hu. assert (HQ : Q (crun cstart l)).
  { assert (H0 : Q cstart) by (split; cbn; congruence). revert H0 Hu. generalize cstart. induction l as [|a l IH]; intros s Hs Hu; [exact Hs|].
    cbn in Hu. destruct Hu as (Ha&Hp&Hu). cbn. apply IH; [apply Q_step; assumption|exact Hu]. }
  destruct (C_run l) as [H1 H2 _ _]. cbn. rewrite H1, H2. intros Hr. destruct (ct_lp (crun cstart l)) eqn:El; try reflexivity.
  destruct HQ as [_ Hd]. destruct (Hd _ El) as (?&?&?&?&?); congruence.
Qed.
(** once set and seen, the flag stops all further cycles until the next activation *)
Lemma starved s l : ct_skip s = true -> ct_lp s <> LPassed ->
  (exists n, ct_log (crun s l) = n ++ ct_log s /\ In Activated n) \/ updates (ct_log (crun s l)) = updates (ct_log s).
Proof.
  revert s; induction l as [|a l IH]; intros s Hk Hp; [right; reflexivity|]. cbn [crun fold_left].
  change (fold_left cstep l (cstep s a)) with (crun (cstep s a) l).
  assert (Hext : forall l s, exists n, ct_log (crun s l) = n ++ ct_log s).
  { clear. intros l; induction l as [|a l IH]; intros s; [exists []; reflexivity|]. cbn [crun fold_left].
    change (fold_left cstep l (cstep s a)) with (crun (cstep s a) l). destruct (IH (cstep s a)) as [n ->].
    assert (H1 : exists m, ct_log (cstep s a) = m ++ ct_log s).
    { cwalk s a; first [exists []; reflexivity|eexists [_]; reflexivity]. }
    destruct H1 as [m ->]. exists (n ++ m). apply app_assoc. }
  assert (H : ct_log (cstep s a) = Activated :: ct_log s \/
     (ct_skip (cstep s a) = true /\ ct_lp (cstep s a) <> LPassed /\ updates (ct_log (cstep s a)) = updates (ct_log s) /\ exists m, ct_log (cstep s a) = m ++ ct_log s)).
  { cwalk s a; try congruence; try (left; reflexivity); right; (split; [reflexivity|split; [congruence|split; [reflexivity|first [exists []; reflexivity|eexists [_]; reflexivity]]]]). }
  destruct H as [H|(H1&H2&H3&m&H4)].
  - left. destruct (Hext l (cstep s a)) as [n Hn]. rewrite Hn, H. exists (n ++ [Activated]). split; [rewrite <- app_assoc; reflexivity|].
    apply in_or_app; right; left; reflexivity.
  - destruct (IH _ H1 H2) as [(n&Hn&Hin)|E]; [left|right; congruence].
    rewrite Hn, H4. exists (n ++ m). split; [apply app_assoc|]. apply in_or_app; left; exact Hin.
Qed.
Theorem rejected_l l l2 : let s := crun cstart l in ct_active s = true -> ct_sv s = SRest -> ct_run s = false -> ct_lp s = LRest ->
  let t := crun s [CPrepare; CWaited; CReject] in
  ct_active t = true /\ hd_error (ct_log t) = Some Rejected /\
  ((exists n, ct_log (crun t l2) = n ++ ct_log t /\ In Activated n) \/ updates (ct_log (crun t l2)) = updates (ct_log t)).
Proof.
  cbn zeta. destruct (crun cstart l) as [ac k r lp v tr]. cbn. intros -> -> -> ->. split; [reflexivity|split; [reflexivity|]].
  apply starved; cbn; congruence.
Qed.
