(** MockProofs.v -- proofs about the mock system. *)
From Coq Require Import List Bool String Ascii Arith ZArith SpecFloat Lia.
Import ListNotations.
From Verif Require Import Base LimitsModel MockModel MockSpec.
Open Scope string_scope.
Open Scope list_scope.
Open Scope nat_scope.

(** *** names *)
Lemma no_slash_app a j : no_slash (a ++ "/" ++ j)%string -> False.
Proof. induction a as [|c a IH]; cbn; intros [A B]; [congruence|]. exact (IH B). Qed.
Lemma full_inj a b i j : no_slash i -> no_slash j -> full (a, i) = full (b, j) -> a = b /\ i = j.
Proof.
  unfold full. cbn [fst snd]. intros Hi Hj. revert b. induction a as [|c a IH]; intros [|d b] H; cbn in H.
  - injection H as H. split; [reflexivity|exact H].
  - injection H as H1 H2. exfalso. apply (no_slash_app b j). cbn in *. rewrite <- H2. exact Hi.
  - injection H as H1 H2. exfalso. apply (no_slash_app a i). cbn in *. rewrite H2. exact Hj.
  - injection H as -> H. destruct (IH b H) as [-> ->]. split; reflexivity.
Qed.
Lemma full_inj' x y : no_slash (snd x) -> no_slash (snd y) -> full x = full y -> x = y.
Proof. destruct x as [a i], y as [b j]. cbn. intros A B H. destruct (full_inj a b i j A B H) as [-> ->]. reflexivity. Qed.
Lemma ns_pos : no_slash HW_POS. Proof. cbn. repeat split; discriminate. Qed.
Lemma ns_vel : no_slash HW_VEL. Proof. cbn. repeat split; discriminate. Qed.
Lemma ns_acc : no_slash HW_ACC. Proof. cbn. repeat split; discriminate. Qed.

Lemma has_iff m k : has m k = true <-> aget m k <> None.
Proof. unfold has. destruct (aget m k); cbn; split; intros; congruence. Qed.
Lemma getf_some m k v : aget m k = Some v -> getf m k = v.
Proof. unfold getf. intros ->. reflexivity. Qed.

(** *** what the passes do to one key; [cur] is its command *)
Definition keeps (k : name) (st st' : alist F) : Prop := aget st' k = aget st k.
(** nothing happens unless the command is finite *)
Definition idle (cur : F) (k : name) (st st' : alist F) : Prop := isfinite cur = false -> aget st' k = aget st k.
(** nothing happens, or the command is copied *)
Definition weak (cur : F) (k : name) (st st' : alist F) : Prop :=
  aget st' k = aget st k \/ (isfinite cur = true /\ aget st' k = Some cur).
Definition strong (cur : F) (k : name) (st st' : alist F) : Prop :=
  aget st' k = if isfinite cur then Some cur else aget st k.
Lemma keeps_weak cur k st st' : keeps k st st' -> weak cur k st st'.
Proof. intros H. left. exact H. Qed.
Lemma weak_idle cur k st st' : weak cur k st st' -> idle cur k st st'.
Proof. intros [H|[H _]] N; [exact H|congruence]. Qed.
Lemma strong_weak cur k st st' : strong cur k st st' -> weak cur k st st'.
Proof. unfold strong, weak. destruct (isfinite cur); auto. Qed.
Lemma weak_trans cur k a b c : weak cur k a b -> weak cur k b c -> weak cur k a c.
Proof. intros H [H2|[F H2]]; [|right; auto]. destruct H as [H|[F H]]; [left; congruence|right; split; [exact F|congruence]]. Qed.
Lemma strong_then cur k a b c : strong cur k a b -> weak cur k b c -> strong cur k a c.
Proof. unfold strong. intros H [H2|[F H2]]; [congruence|]. rewrite F, H2. reflexivity. Qed.
Lemma then_strong cur k a b c : idle cur k a b -> strong cur k b c -> strong cur k a c.
Proof. unfold strong, idle. intros H H2. rewrite H2. destruct (isfinite cur); [reflexivity|]. apply H. reflexivity. Qed.
Lemma idle_trans cur k a b c : idle cur k a b -> idle cur k b c -> idle cur k a c.
Proof. unfold idle. intros H H2 N. rewrite (H2 N). exact (H N). Qed.
Lemma keeps_trans k a b c : keeps k a b -> keeps k b c -> keeps k a c.
Proof. unfold keeps. congruence. Qed.

Lemma andthen_ok so f st' : andthen so f = (st', GOk) -> exists st, so = (st, GOk) /\ f st = (st', GOk).
Proof. destruct so as [st []]; cbn; intros H; try discriminate. eauto. Qed.
Lemma each_rel {A} (f : alist F -> A -> alist F * mout) (R : alist F -> alist F -> Prop) l :
  (forall st, R st st) -> (forall a b c, R a b -> R b c -> R a c) ->
  (forall x st st', In x l -> f st x = (st', GOk) -> R st st') ->
  forall st st', each f st l = (st', GOk) -> R st st'.
Proof.
  intros RR RT. induction l as [|x l IH]; intros HX st st' H; cbn in H; [injection H as <-; apply RR|].
  destruct (f st x) as [st1 o] eqn:E. destruct o; try discriminate.
  eapply RT; [eapply HX; [left; reflexivity|exact E]|]. apply IH; [|exact H].
  intros y s s' I0. apply HX. right. exact I0.
Qed.
Lemma each_strong {A} (f : alist F -> A -> alist F * mout) cur k l :
  (forall x st st', In x l -> f st x = (st', GOk) -> weak cur k st st') ->
  (exists x, In x l /\ forall st st', f st x = (st', GOk) -> strong cur k st st') ->
  forall st st', each f st l = (st', GOk) -> strong cur k st st'.
Proof.
  induction l as [|x l IH]; intros HW (y&IY&HY) st st' H; [destruct IY|]. cbn in H.
  destruct (f st x) as [st1 o] eqn:E. destruct o; try discriminate.
  assert (WR : weak cur k st1 st').
  { eapply each_rel; [intros s; left; reflexivity|intros; eapply weak_trans; eassumption| |exact H].
    intros z s s' Iz. apply HW. right. exact Iz. }
  destruct IY as [->|IY].
  - eapply strong_then; [exact (HY _ _ E)|exact WR].
  - eapply then_strong; [apply weak_idle; eapply HW; [left; reflexivity|exact E]|].
    eapply IH; [| |exact H].
    + intros z s s' Iz. apply HW. right. exact Iz.
    + exists y. split; assumption.
Qed.
Lemma mirror_same cmd k v st st' : aget cmd k = Some v -> mirror cmd st k = (st', GOk) -> strong v k st st'.
Proof.
  unfold mirror, strong. intros ->. destruct (isinf v); [discriminate|]. destruct (isfinite v); intros [= <-]; [|reflexivity].
  apply aget_aset_same.
Qed.
Lemma mirror_other cmd k k' st st' : k' <> k -> mirror cmd st k' = (st', GOk) -> keeps k st st'.
Proof.
  unfold mirror, keeps. intros N. destruct (aget cmd k') as [v|]; [|discriminate].
  destruct (isinf v); [discriminate|]. destruct (isfinite v); intros [= <-]; [|reflexivity].
  apply aget_aset_other. congruence.
Qed.
Lemma mirror_weak cmd k k' v st st' : aget cmd k = Some v -> mirror cmd st k' = (st', GOk) -> weak v k st st'.
Proof.
  intros C H. destruct (String.string_dec k' k) as [->|N].
  - apply strong_weak. exact (mirror_same _ _ _ _ _ C H).
  - apply keeps_weak. exact (mirror_other _ _ _ _ _ N H).
Qed.
Lemma gpio_weak cmd k v st st' pi : aget cmd k = Some v -> gpio1 cmd st pi = (st', GOk) -> weak v k st st'.
Proof. unfold gpio1. intros C. destruct (has st (full pi)); [apply mirror_weak; exact C|intros [= <-]; left; reflexivity]. Qed.
Lemma tail_weak c cmd k v st st' : aget cmd k = Some v ->
  (if g_mgpio c then each (mirror1 cmd) st (g_gst c) else each (gpio1 cmd) st (g_gcmd c)) = (st', GOk) -> weak v k st st'.
Proof.
  intros C H. destruct (g_mgpio c);
    (eapply each_rel; [intros s; left; reflexivity|intros; eapply weak_trans; eassumption| |exact H]);
    intros x s s' _ E; [exact (mirror_weak _ _ _ _ _ _ C E)|exact (gpio_weak _ _ _ _ _ _ C E)].
Qed.
Lemma sens_weak c cmd k v st st' : aget cmd k = Some v ->
  (if g_msens c then each (mirror1 cmd) st (g_sst c) else (st, GOk)) = (st', GOk) -> weak v k st st'.
Proof.
  intros C H. destruct (g_msens c); [|injection H as <-; left; reflexivity].
  eapply each_rel; [intros s; left; reflexivity|intros; eapply weak_trans; eassumption| |exact H].
  intros x s s' _ E. exact (mirror_weak _ _ _ _ _ _ C E).
Qed.
(** mimic joints touch their own interfaces only *)
Lemma mimic1_keeps c st st' m p i : no_slash i -> In m (g_mimic c) -> ~ mimics c p -> mimic1 c st m = (st', GOk) ->
  keeps (full (p, i)) st st'.
Proof.
  intros Hi IM NM. destruct m as [[[a b] mult] off]. unfold mimic1.
  destruct (nth_error (g_joints c) a) as [ja|] eqn:EA; [|discriminate].
  destruct (nth_error (g_joints c) b) as [jb|]; [|discriminate].
  assert (N : ja <> p) by (intros ->; apply NM; exists a, b, mult, off; split; assumption).
  assert (NF : forall i', no_slash i' -> full (p, i) <> full (ja, i')).
  { intros i' H E. destruct (full_inj _ _ _ _ Hi H E). congruence. }
  pose proof (NF _ ns_pos) as N1. pose proof (NF _ ns_vel) as N2. pose proof (NF _ ns_acc) as N3. clear NF.
  assert (G : forall i' (f : F -> F) s s', full (p, i) <> full (ja, i') ->
    (if has s (full (ja, i')) then
       match aget s (full (jb, i')) with Some v => (aset s (full (ja, i')) (f v), GOk) | None => (s, GThrow) end
     else (s, GOk)) = (s', GOk) -> keeps (full (p, i)) s s').
  { intros i' f s s' NE H. destruct (has s (full (ja, i'))); [|injection H as <-; reflexivity].
    destruct (aget s (full (jb, i'))); [|discriminate]. injection H as <-. apply aget_aset_other. exact NE. }
  cbn zeta.
  destruct (if has st (full (ja, HW_POS)) then _ else _) as [s1 o1] eqn:E1. destruct o1; try (intros H; discriminate H).
  destruct (if has s1 (full (ja, HW_VEL)) then _ else _) as [s2 o2] eqn:E2. destruct o2; try (intros H; discriminate H).
  intros E3. eapply keeps_trans; [exact (G _ _ _ _ N1 E1)|]. eapply keeps_trans; [exact (G _ _ _ _ N2 E2)|exact (G _ _ _ _ N3 E3)].
Qed.
Lemma mimics_keep c st st' p i : no_slash i -> ~ mimics c p -> each (mimic1 c) st (g_mimic c) = (st', GOk) ->
  keeps (full (p, i)) st st'.
Proof.
  intros Hi NM H. eapply (each_rel _ (keeps (full (p, i)))); [reflexivity|intros; eapply keeps_trans; eassumption| |exact H].
  intros m s s' IM E. exact (mimic1_keeps c s s' m p i Hi IM NM E).
Qed.
(** the position loop *)
Lemma follow1_idle c cmd k st pi : idle (getf cmd k) k st (follow1 c cmd st pi).
Proof.
  unfold follow1, idle. intros N. destruct (_ && _ && _) eqn:E; [|reflexivity].
  apply andb_true_iff in E. destruct E as [_ E]. apply aget_aset_other. intros X. rewrite X in N. congruence.
Qed.
Lemma follow1_keeps c cmd k st pi : full pi <> k \/ snd pi <> HW_POS -> keeps k st (follow1 c cmd st pi).
Proof.
  unfold follow1, keeps. intros N. destruct (_ && _ && _) eqn:E; [|reflexivity].
  apply andb_true_iff in E. destruct E as [E _]. apply andb_true_iff in E. destruct E as [E _]. apply String.eqb_eq in E.
  apply aget_aset_other. destruct N; congruence.
Qed.
Lemma fold_rel {A} (f : alist F -> A -> alist F) (R : alist F -> alist F -> Prop) l :
  (forall st, R st st) -> (forall a b c, R a b -> R b c -> R a c) -> (forall x st, In x l -> R st (f st x)) ->
  forall st, R st (fold_left f l st).
Proof.
  intros RR RT. induction l as [|x l IH]; intros HX st; cbn; [apply RR|].
  eapply RT; [apply HX; left; reflexivity|]. apply IH. intros y s I0. apply HX. right. exact I0.
Qed.
Lemma joints_idle c dt cmd modes k st : g_dyn c = false -> idle (getf cmd k) k st (joints_pass c dt cmd modes st).
Proof.
  intros D. unfold joints_pass. rewrite D.
  apply (fold_rel _ (idle (getf cmd k) k)); [intros s N; reflexivity|intros; eapply idle_trans; eassumption|].
  intros _ s _. apply (fold_rel _ (idle (getf cmd k) k)); [intros s' N; reflexivity|intros; eapply idle_trans; eassumption|].
  intros pi s' _. apply follow1_idle.
Qed.
Lemma joints_keeps c dt cmd modes k st : g_dyn c = false -> (forall pi, In pi (g_jcmd c) -> full pi <> k \/ snd pi <> HW_POS) ->
  keeps k st (joints_pass c dt cmd modes st).
Proof.
  intros D N. unfold joints_pass. rewrite D.
  apply (fold_rel _ (keeps k)); [reflexivity|intros; eapply keeps_trans; eassumption|].
  intros _ s _. apply (fold_rel _ (keeps k)); [reflexivity|intros; eapply keeps_trans; eassumption|].
  intros pi s' I0. apply follow1_keeps. exact (N pi I0).
Qed.
(** on a position interface: the command plus the offset *)
Lemma follow_pos c cmd p st l : In (p, HW_POS) l -> has st (full (p, HW_POS)) = true ->
  aget (fold_left (follow1 c cmd) l st) (full (p, HW_POS)) =
  if isfinite (getf cmd (full (p, HW_POS))) then Some (fadd (getf cmd (full (p, HW_POS))) (pos_off c)) else aget st (full (p, HW_POS)).
Proof.
  set (k := full (p, HW_POS)). intros I0 HS.
  destruct (isfinite (getf cmd k)) eqn:FI.
  - assert (G : forall l st, has st k = true -> (aget st k = Some (fadd (getf cmd k) (pos_off c)) \/ In (p, HW_POS) l) ->
      aget (fold_left (follow1 c cmd) l st) k = Some (fadd (getf cmd k) (pos_off c))).
    { clear l I0 st HS. induction l as [|pi l IH]; intros st HS HI; cbn.
      - destruct HI as [HI|[]]; exact HI.
      - assert (X : has (follow1 c cmd st pi) k = true /\ (aget (follow1 c cmd st pi) k = Some (fadd (getf cmd k) (pos_off c)) \/ In (p, HW_POS) l)).
        { unfold follow1. destruct (String.string_dec (full pi) k) as [E|E].
          - rewrite E, FI, HS. rewrite !andb_true_r. destruct (String.eqb_spec (snd pi) HW_POS) as [EP|EP]; cbn [andb].
            + unfold has. rewrite aget_aset_same. split; [reflexivity|left; reflexivity].
            + split; [exact HS|]. destruct HI as [HI|[HI|HI]]; [left; exact HI| |right; exact HI].
              subst pi. exfalso. apply EP. reflexivity.
          - destruct (_ && _ && _).
            + unfold has. rewrite aget_aset_other by congruence. split; [exact HS|].
              destruct HI as [HI|[HI|HI]]; [left; exact HI| |right; exact HI]. subst pi. exfalso. apply E. reflexivity.
            + split; [exact HS|]. destruct HI as [HI|[HI|HI]]; [left; exact HI| |right; exact HI]. subst pi. exfalso. apply E. reflexivity. }
        destruct X as [X1 X2]. exact (IH _ X1 X2). }
    apply G; [exact HS|right; exact I0].
  - apply (fold_rel (follow1 c cmd) (idle (getf cmd k) k)); [intros s N; reflexivity|intros; eapply idle_trans; eassumption| |exact FI].
    intros pi s _. apply follow1_idle.
Qed.
Lemma joints_pos c dt cmd modes p st : g_dyn c = false -> In (p, HW_POS) (g_jcmd c) -> In p (g_joints c) ->
  has st (full (p, HW_POS)) = true ->
  aget (joints_pass c dt cmd modes st) (full (p, HW_POS)) =
  if isfinite (getf cmd (full (p, HW_POS))) then Some (fadd (getf cmd (full (p, HW_POS))) (pos_off c)) else aget st (full (p, HW_POS)).
Proof.
  intros D I0 IP HS. unfold joints_pass. rewrite D. destruct (g_joints c) as [|j js]; [destruct IP|]. clear IP.
  set (k := full (p, HW_POS)) in *. cbn [fold_left].
  pose proof (follow_pos c cmd p st _ I0 HS) as E1. fold k in E1.
  assert (H1 : has (fold_left (follow1 c cmd) (g_jcmd c) st) k = true).
  { unfold has in *. rewrite E1. destruct (isfinite (getf cmd k)); [reflexivity|exact HS]. }
  assert (G : forall (js : list name) s, has s k = true -> aget s k = (if isfinite (getf cmd k) then Some (fadd (getf cmd k) (pos_off c)) else aget st k) ->
     aget (fold_left (fun st _ => fold_left (follow1 c cmd) (g_jcmd c) st) js s) k = (if isfinite (getf cmd k) then Some (fadd (getf cmd k) (pos_off c)) else aget st k)).
  { clear js E1 H1 j. induction js as [|j js IH]; intros s Hs Es; cbn; [exact Es|].
    pose proof (follow_pos c cmd p s _ I0 Hs) as E2. fold k in E2. apply IH.
    - unfold has in *. rewrite E2. destruct (isfinite (getf cmd k)); [reflexivity|exact Hs].
    - rewrite E2. destruct (isfinite (getf cmd k)); [reflexivity|exact Es]. }
  exact (G js _ H1 E1).
Qed.
Lemma loop1_keeps c cmd st st' pi k : full pi <> k \/ skipped c (snd pi) = true -> loop1 c cmd st pi = (st', GOk) -> keeps k st st'.
Proof.
  intros N H. unfold loop1 in H. destruct (skipped c (snd pi)); [injection H as <-; reflexivity|].
  destruct N as [N|N]; [|discriminate].
  destruct (if has cmd (full pi) then mirror cmd st (full pi) else (st, GOk)) as [s o] eqn:E. destruct o; try discriminate.
  assert (K1 : keeps k st s).
  { destruct (has cmd (full pi)); [exact (mirror_other _ _ _ _ _ N E)|injection E as <-; reflexivity]. }
  destruct (String.eqb (g_custom c) (snd pi)); [|injection H as <-; exact K1].
  destruct (aget cmd (full (fst pi, HW_POS))) as [v|]; [|discriminate].
  destruct (isfinite _); injection H as <-; [|exact K1].
  eapply keeps_trans; [exact K1|]. apply aget_aset_other. congruence.
Qed.
Lemma loop1_strong c cmd st st' pi v : skipped c (snd pi) = false -> g_custom c <> snd pi -> aget cmd (full pi) = Some v ->
  loop1 c cmd st pi = (st', GOk) -> strong v (full pi) st st'.
Proof.
  intros S N C H. unfold loop1 in H. rewrite S in H. unfold has in H. rewrite C in H. cbn [is_some] in H.
  destruct (mirror cmd st (full pi)) as [s o] eqn:E. destruct o; try discriminate.
  apply String.eqb_neq in N. rewrite N in H. injection H as <-. exact (mirror_same _ _ _ _ _ C E).
Qed.
Lemma read_parts c dt cmd modes st st' : g_disabled c = false -> read_st c dt cmd modes st = (st', GOk) ->
  exists s1 s2 s3, each (loop1 c cmd) (joints_pass c dt cmd modes st) (g_jst c) = (s1, GOk) /\
    each (mimic1 c) s1 (g_mimic c) = (s2, GOk) /\
    (if g_msens c then each (mirror1 cmd) s2 (g_sst c) else (s2, GOk)) = (s3, GOk) /\
    (if g_mgpio c then each (mirror1 cmd) s3 (g_gst c) else each (gpio1 cmd) s3 (g_gcmd c)) = (st', GOk).
Proof.
  unfold read_st. intros -> H. apply andthen_ok in H. destruct H as (s1&A&H). apply andthen_ok in H. destruct H as (s2&B&H).
  apply andthen_ok in H. destruct H as (s3&C&H). eauto 8.
Qed.
(** *** the tables keep their keys *)
Definition grows (st st' : alist F) : Prop := forall k, aget st k <> None -> aget st' k <> None.
Lemma grows_aset st k v : grows st (aset st k v).
Proof. intros k'. rewrite aget_aset. destruct (String.eqb k' k); congruence. Qed.
Lemma grows_trans a b c : grows a b -> grows b c -> grows a c.
Proof. intros A B k H. exact (B k (A k H)). Qed.
Lemma grows_refl a : grows a a.
Proof. intros k H. exact H. Qed.
Lemma mirror_grows cmd st k st' o : mirror cmd st k = (st', o) -> grows st st'.
Proof.
  unfold mirror. destruct (aget cmd k) as [v|]; [|intros [= <- _]; apply grows_refl].
  destruct (isinf v); [intros [= <- _]; apply grows_refl|]. destruct (isfinite v); intros [= <- _]; [apply grows_aset|apply grows_refl].
Qed.
Lemma loop1_grows c cmd st pi st' o : loop1 c cmd st pi = (st', o) -> grows st st'.
Proof.
  unfold loop1. destruct (skipped c (snd pi)); [intros [= <- _]; apply grows_refl|].
  destruct (if has cmd (full pi) then mirror cmd st (full pi) else (st, GOk)) as [s o1] eqn:E.
  assert (G : grows st s) by (destruct (has cmd (full pi)); [exact (mirror_grows _ _ _ _ _ E)|injection E as <- _; apply grows_refl]).
  destruct o1; try (intros [= <- _]; exact G).
  destruct (String.eqb (g_custom c) (snd pi)); [|intros [= <- _]; exact G].
  destruct (aget cmd (full (fst pi, HW_POS))) as [v|]; [|intros [= <- _]; exact G].
  destruct (isfinite _); intros [= <- _]; [|exact G]. eapply grows_trans; [exact G|apply grows_aset].
Qed.
Lemma put_grows st k v : grows st (put st k v).
Proof. unfold put. destruct (_ && _); [apply grows_aset|apply grows_refl]. Qed.
Lemma joints_grows c dt cmd modes st : grows st (joints_pass c dt cmd modes st).
Proof.
  unfold joints_pass. destruct (g_dyn c).
  - apply (fold_rel _ grows); [apply grows_refl|intros; eapply grows_trans; eassumption|].
    intros [j m] s _. unfold dyn_joint. destruct (dyn_values _ _ _ _ _) as [[p v] a].
    eapply grows_trans; [|apply put_grows]. eapply grows_trans; [|apply put_grows]. apply put_grows.
  - apply (fold_rel _ grows); [apply grows_refl|intros; eapply grows_trans; eassumption|].
    intros _ s _. apply (fold_rel _ grows); [apply grows_refl|intros; eapply grows_trans; eassumption|].
    intros pi s' _. unfold follow1. destruct (_ && _ && _); [apply grows_aset|apply grows_refl].
Qed.
Lemma mimic1_grows c st m st' : mimic1 c st m = (st', GOk) -> grows st st'.
Proof.
  destruct m as [[[a b] mult] off]. unfold mimic1.
  destruct (nth_error (g_joints c) a) as [ja|]; [|discriminate]. destruct (nth_error (g_joints c) b) as [jb|]; [|discriminate].
  assert (G : forall i' (f : F -> F) s s',
    (if has s (full (ja, i')) then
       match aget s (full (jb, i')) with Some v => (aset s (full (ja, i')) (f v), GOk) | None => (s, GThrow) end
     else (s, GOk)) = (s', GOk) -> grows s s').
  { intros i' f s s' H. destruct (has s (full (ja, i'))); [|injection H as <-; apply grows_refl].
    destruct (aget s (full (jb, i'))); [|discriminate]. injection H as <-. apply grows_aset. }
  cbn zeta.
  destruct (if has st (full (ja, HW_POS)) then _ else _) as [s1 o1] eqn:E1. destruct o1; try (intros H; discriminate H).
  destruct (if has s1 (full (ja, HW_VEL)) then _ else _) as [s2 o2] eqn:E2. destruct o2; try (intros H; discriminate H).
  intros E3. eapply grows_trans; [exact (G _ _ _ _ E1)|]. eapply grows_trans; [exact (G _ _ _ _ E2)|exact (G _ _ _ _ E3)].
Qed.
Lemma each_grows {A} (f : alist F -> A -> alist F * mout) l : (forall x st st', f st x = (st', GOk) -> grows st st') ->
  forall st st', each f st l = (st', GOk) -> grows st st'.
Proof. intros H. apply each_rel; [apply grows_refl|intros; eapply grows_trans; eassumption|]. intros x s s' _. apply H. Qed.
Lemma read_grows c dt cmd modes st st' : read_st c dt cmd modes st = (st', GOk) -> grows st st'.
Proof.
  intros H. destruct (g_disabled c) eqn:D; [unfold read_st in H; rewrite D in H; injection H as <-; apply grows_refl|].
  destruct (read_parts _ _ _ _ _ _ D H) as (s1&s2&s3&A&B&C&E).
  eapply grows_trans; [apply (joints_grows c dt cmd modes)|]. eapply grows_trans; [eapply each_grows; [|exact A]; intros; eapply loop1_grows; eassumption|].
  eapply grows_trans; [eapply each_grows; [|exact B]; intros; eapply mimic1_grows; eassumption|].
  assert (M1 : forall (x : name * name) s s', mirror1 cmd s x = (s', GOk) -> grows s s') by (intros x s s'; apply mirror_grows).
  assert (M2 : forall (x : name * name) s s', gpio1 cmd s x = (s', GOk) -> grows s s').
  { unfold gpio1. intros x s s'. destruct (has s (full x)); [apply mirror_grows|intros [= <-]; apply grows_refl]. }
  eapply grows_trans.
  - destruct (g_msens c); [eapply each_grows; [exact M1|exact C]|injection C as <-; apply grows_refl].
  - destruct (g_mgpio c); eapply each_grows; [exact M1|exact E|exact M2|exact E].
Qed.
Lemma configure_grows c g : grows (m_st g) (m_st (configure c g)).
Proof.
  cbn. apply (fold_rel _ grows); [apply grows_refl|intros; eapply grows_trans; eassumption|].
  intros pi s _. unfold conf1. destruct (isnan _); destruct (_ && _); try apply grows_refl; try apply grows_aset.
  eapply grows_trans; apply grows_aset.
Qed.
(** *** one key through a history *)
Definition keys_in (c : mcfg) (g : mst) : Prop :=
  (forall k, In k (exported_states c) -> aget (m_st g) k <> None) /\
  (forall k, In k (exported_commands c) <-> aget (m_cmd g) k <> None).
Lemma step_keys c g o g' : keys_in c g -> mstep c g o = Some g' -> keys_in c g'.
Proof.
  intros [A B]. destruct o as [|k v|dt|l]; cbn [mstep].
  - intros [= <-]. split; [|exact B]. intros k H. apply configure_grows. exact (A k H).
  - destruct (has (m_cmd g) k) eqn:E; intros [= <-]; [|split; assumption]. split; [exact A|]. cbn.
    intros k'. rewrite aget_aset. destruct (String.eqb_spec k' k) as [->|N]; [|apply B]. rewrite B.
    apply has_iff in E. split; [discriminate|intros _; exact E].
  - destruct (read_st _ _ _ _ _) as [st []] eqn:E; try discriminate. intros [= <-]. split; [|exact B].
    intros k H. cbn. eapply read_grows; [exact E|exact (A k H)].
  - destruct (prepare c l); intros [= <-]; [|split; assumption]. split; assumption.
Qed.
Lemma last_finite_app l v : last_finite (l ++ [v]) = if isfinite v then Some v else last_finite l.
Proof.
  induction l as [|w l IH]; cbn; [reflexivity|]. rewrite IH. destruct (isfinite v); reflexivity.
Qed.
Section Key.
Variable c : mcfg.
Variable k : name.
Variable f : F -> F.
Hypothesis Hread : forall dt cmd modes st st' cur, (forall k, In k (exported_states c) -> aget st k <> None) ->
  (forall k, In k (exported_commands c) <-> aget cmd k <> None) ->
  aget cmd k = Some cur -> read_st c dt cmd modes st = (st', GOk) ->
  aget st' k = if isfinite cur then Some (f cur) else aget st k.
Lemma key_history ops : forall g g' cur acc, keys_in c g -> aget (m_cmd g) k = Some cur ->
  (forall v, last_finite acc = Some v -> aget (m_st g) k = Some (f v)) -> mrun c g ops = Some g' ->
  forall v, last_finite (commands_read k cur acc ops) = Some v -> aget (m_st g') k = Some (f v).
Proof.
  induction ops as [|o ops IH]; intros g g' cur acc K HC HA R v LF; cbn in R.
  - injection R as <-. exact (HA v LF).
  - destruct (mstep c g o) as [g1|] eqn:E; [|discriminate]. pose proof (step_keys c g o g1 K E) as K1.
    destruct o as [|k' w|dt|l]; cbn in LF.
    + cbn in E. injection E as <-. eapply (IH _ g' cur []); [exact K1|exact HC|discriminate|exact R|exact LF].
    + cbn in E. destruct (has (m_cmd g) k') eqn:HK.
      * injection E as <-. eapply (IH _ g' (if String.eqb k' k then w else cur) acc); [exact K1| |exact HA|exact R|exact LF].
        cbn. rewrite aget_aset. rewrite String.eqb_sym. destruct (String.eqb k' k); [reflexivity|exact HC].
      * injection E as <-. assert (NE : String.eqb k' k = false).
        { apply String.eqb_neq. intros ->. unfold has in HK. rewrite HC in HK. discriminate. }
        rewrite NE in LF. eapply (IH g g' cur acc); eassumption.
    + cbn in E. destruct (read_st c dt (m_cmd g) (m_mode g) (m_st g)) as [st []] eqn:ER; try discriminate. injection E as <-.
      eapply (IH _ g' cur (acc ++ [cur])); [exact K1|exact HC| |exact R|exact LF].
      intros v' L'. rewrite last_finite_app in L'. cbn.
      rewrite (Hread _ _ _ _ _ _ (proj1 K) (proj2 K) HC ER). destruct (isfinite cur); [injection L' as <-; reflexivity|exact (HA v' L')].
    + assert (E2 : m_cmd g1 = m_cmd g /\ m_st g1 = m_st g) by (cbn in E; destruct (prepare c l); injection E as <-; split; reflexivity).
      destruct E2 as [E2 E3]. eapply (IH g1 g' cur acc); [exact K1|rewrite E2; exact HC|rewrite E3; exact HA|exact R|exact LF].
Qed.
End Key.
Lemma sane_keys c g : sane c g -> keys_in c g.
Proof. intros S. split; [intros k H; apply (sane_states c g S); exact H|exact (sane_cmds c g S)]. Qed.
(** *** C49 *)
Lemma in_jst_state c pi : In pi (g_jst c) -> In (full pi) (exported_states c).
Proof. intros H. unfold exported_states. apply in_map. apply in_or_app. left. exact H. Qed.
Lemma in_jcmd c pi : In pi (g_jcmd c) -> In (full pi) (exported_commands c).
Proof. intros H. unfold exported_commands. apply in_or_app. left. apply in_map. apply in_or_app. left. exact H. Qed.
Lemma cmd_some c g k : keys_in c g -> In k (exported_commands c) -> exists cur, aget (m_cmd g) k = Some cur.
Proof. intros [_ B] H. apply B in H. destruct (aget (m_cmd g) k); [eauto|congruence]. Qed.

Lemma nodup_split (a b : list name) x : NoDup (a ++ b) -> In x a -> In x b -> False.
Proof.
  induction a as [|y a IH]; intros ND A B; [destruct A|]. inversion ND as [|? ? N ND']; subst. destruct A as [->|A].
  - apply N. apply in_or_app. right. exact B.
  - exact (IH ND' A B).
Qed.
Lemma each_keeps {A} (f : alist F -> A -> alist F * mout) k l :
  (forall x st st', In x l -> f st x = (st', GOk) -> keeps k st st') -> forall st st', each f st l = (st', GOk) -> keeps k st st'.
Proof. apply each_rel; [reflexivity|intros; eapply keeps_trans; eassumption]. Qed.
Lemma mirror1_keeps cmd k st st' pi : full pi <> k -> mirror1 cmd st pi = (st', GOk) -> keeps k st st'.
Proof. unfold mirror1. apply mirror_other. Qed.
Lemma gpio1_keeps cmd k st st' pi : full pi <> k -> gpio1 cmd st pi = (st', GOk) -> keeps k st st'.
Proof. unfold gpio1. intros N. destruct (has st (full pi)); [apply mirror_other; exact N|intros [= <-]; reflexivity]. Qed.
Lemma skipped_nodyn c i : g_dyn c = false -> skipped c i = String.eqb i HW_POS.
Proof. unfold skipped. intros ->. unfold mem. cbn [existsb]. rewrite orb_false_r. reflexivity. Qed.

(** the sensor and gpio loops do not touch a joint's state interface *)
Lemma tail_keeps c cmd s2 s3 st' k :
  NoDup (exported_states c) -> In k (map full (g_jst c)) -> (forall pi, In pi (g_gcmd c) -> full pi <> k) ->
  (if g_msens c then each (mirror1 cmd) s2 (g_sst c) else (s2, GOk)) = (s3, GOk) ->
  (if g_mgpio c then each (mirror1 cmd) s3 (g_gst c) else each (gpio1 cmd) s3 (g_gcmd c)) = (st', GOk) ->
  keeps k s2 st'.
Proof.
  intros ND IJ NG C E. unfold exported_states in ND. rewrite map_app in ND.
  assert (NS : forall pi, In pi (g_sst c ++ g_gst c) -> full pi <> k).
  { intros pi I0 X. eapply nodup_split; [exact ND|exact IJ|]. rewrite <- X. apply in_map. exact I0. }
  eapply keeps_trans with (b := s3).
  - destruct (g_msens c); [|injection C as <-; reflexivity]. eapply each_keeps; [|exact C].
    intros x s s' I0. apply mirror1_keeps. apply NS. apply in_or_app. left. exact I0.
  - destruct (g_mgpio c); (eapply each_keeps; [|exact E]); intros x s s' I0.
    + apply mirror1_keeps. apply NS. apply in_or_app. right. exact I0.
    + apply gpio1_keeps. apply NG. exact I0.
Qed.

Lemma main_position c g0 ops g p v :
  sane c g0 -> g_dyn c = false -> g_disabled c = false ->
  In (p, HW_POS) (g_jst c) -> In (p, HW_POS) (g_jcmd c) -> ~ mimics c p ->
  (~ In (p, HW_POS) (g_gcmd c)) ->
  mrun c g0 ops = Some g ->
  last_finite (commands_read (full (p, HW_POS)) (getf (m_cmd g0) (full (p, HW_POS))) [] ops) = Some v ->
  aget (m_st g) (full (p, HW_POS)) = Some (fadd v (pos_off c)).
Proof.
  intros SA D DI IS IC NM NG R LF. set (k := full (p, HW_POS)) in *.
  pose proof (sane_keys c g0 SA) as K. destruct (cmd_some c g0 k K (in_jcmd c _ IC)) as [cur HC].
  rewrite (getf_some _ _ _ HC) in LF.
  assert (SL : forall pi, In pi (g_jst c ++ g_jcmd c ++ g_sst c ++ g_gst c ++ g_gcmd c) -> full pi = k -> pi = (p, HW_POS)).
  { intros pi I0 E. apply full_inj'; [exact (sane_slash c g0 SA pi I0)|exact ns_pos|exact E]. }
  assert (ND := sane_nodup c g0 SA). assert (IP := sane_joint c g0 SA _ IC). cbn [fst] in IP.
  eapply (key_history c k (fun v => fadd v (pos_off c))); [|exact K|exact HC| |exact R|exact LF]; [|discriminate].
  clear g0 ops g v R LF K HC cur SA. intros dt cmd modes st st' cur HSt HCm HC HR.
  destruct (read_parts _ _ _ _ _ _ DI HR) as (s1&s2&s3&A&B&C&E).
  assert (E1 := joints_pos c dt cmd modes p st D IC IP (proj2 (has_iff _ _) (HSt _ (in_jst_state c _ IS)))).
  fold k in E1. rewrite (getf_some _ _ _ HC) in E1. rewrite <- E1.
  eapply keeps_trans; [eapply each_keeps; [|exact A]|].
  { intros x s s' I0. apply loop1_keeps. destruct (String.string_dec (full x) k) as [X|X]; [right|left; exact X].
    rewrite (SL x (in_or_app _ _ _ (or_introl I0)) X). rewrite (skipped_nodyn c _ D). reflexivity. }
  eapply keeps_trans; [exact (mimics_keep c _ _ p HW_POS ns_pos NM B)|].
  eapply tail_keeps; [exact ND|apply in_map; exact IS| |exact C|exact E].
  intros pi I0 X. apply NG. rewrite <- (SL pi); [exact I0| |exact X]. rewrite !in_app_iff. tauto.
Qed.
