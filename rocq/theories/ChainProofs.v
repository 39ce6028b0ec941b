(** ChainProofs.v -- proofs about ChainModel. *)
From Verif Require Import Base ChainModel.

Section U.
Variable U : list name.
Definition unv (acc : list name) : nat := length (filter (fun x => negb (mem x acc)) U).

Lemma unv_le acc : unv acc <= length U.
Proof. unfold unv. induction U as [|u l IH]; simpl; [lia|]. destruct (mem u acc); simpl; lia. Qed.

Lemma unv_mono acc acc' : incl acc acc' -> unv acc' <= unv acc.
Proof.
  intros H. unfold unv. induction U as [|u l IH]; simpl; [lia|].
  destruct (mem u acc) eqn:E; simpl.
  - apply mem_In in E. apply H in E. apply mem_In in E. rewrite E. simpl. exact IH.
  - destruct (mem u acc'); simpl; lia.
Qed.

Lemma unv_pos acc n : In n U -> ~ In n acc -> 1 <= unv acc.
Proof.
  intros Hn H. unfold unv. induction U as [|u l IH]; simpl in *; [tauto|].
  destruct Hn as [->|Hn].
  - apply mem_false in H. rewrite H. simpl. lia.
  - specialize (IH Hn). destruct (mem u acc); simpl; lia.
Qed.

Lemma unv_lt acc acc' n : incl acc acc' -> In n U -> ~ In n acc -> In n acc' -> unv acc' < unv acc.
Proof.
  intros H Hn H1 H2. unfold unv. induction U as [|u l IH]; simpl in *; [tauto|].
  destruct Hn as [->|Hn].
  - apply mem_false in H1. rewrite H1. apply mem_In in H2. rewrite H2. simpl.
    clear IH. assert (M : length (filter (fun x => negb (mem x acc')) l) <= length (filter (fun x => negb (mem x acc)) l)).
    { induction l as [|v l IH]; simpl; [lia|]. destruct (mem v acc) eqn:E; simpl.
      - apply mem_In in E. apply H in E. apply mem_In in E. rewrite E. simpl. exact IH.
      - destruct (mem v acc'); simpl; lia. }
    lia.
  - specialize (IH Hn). destruct (mem u acc) eqn:E; simpl.
    + apply mem_In in E. apply H in E. apply mem_In in E. rewrite E. simpl. exact IH.
    + destruct (mem u acc'); simpl; lia.
Qed.
End U.

(** ------------------------------------------------------------------ connectedness *)
(** [b] is named as following or preceding controller of [a] *)
Definition adj (s : spec) (a b : name) : Prop :=
  In b (following (get_links s a)) \/ In b (preceding (get_links s a)).
Definition known (s : spec) (n : name) : Prop := exists x, aget s n = Some x.

Inductive conn (s : spec) (a : name) : name -> Prop :=
| conn_refl : conn s a a
| conn_step b c : conn s a b -> adj s b c -> known s c -> conn s a c.

Lemma conn_trans s a b c : conn s a b -> conn s b c -> conn s a c.
Proof. intros H1 H2. induction H2; [exact H1|]. eapply conn_step; eauto. Qed.

Lemma aget_spec_names s n x : aget s n = Some x ->
  In n (spec_names s) /\ (forall m, In m (following x) \/ In m (preceding x) -> In m (spec_names s)).
Proof.
  unfold spec_names. induction s as [|[k y] s IH]; simpl; [discriminate|].
  destruct (String.eqb_spec n k) as [->|Hn].
  - intros [= ->]. split; [left; reflexivity|]. intros m Hm. right. rewrite !in_app_iff. tauto.
  - intros H. destruct (IH H) as [H1 H2]. split.
    + right. rewrite !in_app_iff. tauto.
    + intros m Hm. right. rewrite !in_app_iff. right. apply H2. exact Hm.
Qed.

Lemma adj_spec_names s a b : adj s a b -> In b (spec_names s).
Proof.
  unfold adj, get_links. destruct (aget s a) as [x|] eqn:E; simpl; [|tauto].
  intros H. eapply aget_spec_names in E. destruct E as [_ E]. apply E. exact H.
Qed.

(** ------------------------------------------------------------------ get_full_chain_spec *)
Record fc_post (s : spec) (n : name) (acc acc' : list name) : Prop := {
  fp_incl : incl acc acc';
  fp_nodup : NoDup acc -> NoDup acc';
  fp_self : known s n -> In n acc';
  fp_sound : forall x, In x acc' -> In x acc \/ (known s n /\ conn s n x);
  fp_closed : forall x y, In x acc' -> (~ In x acc \/ x = n) -> known s n -> adj s x y -> known s y -> In y acc'
}.

Lemma chain_loop_spec s f (H : forall acc n, (~ In n acc) -> unv (spec_names s) acc <= f ->
    In n (spec_names s) -> exists acc', full_chain f s n acc = Some acc' /\ fc_post s n acc acc') :
  forall l acc, (forall c, In c l -> In c (spec_names s)) -> unv (spec_names s) acc <= f ->
  exists acc', chain_loop (full_chain f s) l acc = Some acc' /\ incl acc acc' /\ (NoDup acc -> NoDup acc') /\
    (forall c, In c l -> known s c -> In c acc') /\
    (forall x, In x acc' -> In x acc \/ exists c, In c l /\ known s c /\ conn s c x) /\
    (forall x y, In x acc' -> ~ In x acc -> adj s x y -> known s y -> In y acc').
Proof.
  induction l as [|c l IH]; intros acc Hl Hu; simpl.
  - exists acc. repeat split; auto using incl_refl; simpl; try tauto.
  - destruct (mem c acc) eqn:E.
    + apply mem_In in E. destruct (IH acc) as (acc' & R & I1 & I2 & I3 & I4 & I5); auto with datatypes.
      exists acc'. split; [exact R|]. split; [exact I1|]. split; [exact I2|]. split; [|split].
      * intros c' [<-|Hc] Hk; [apply I1; exact E|]. apply I3; assumption.
      * intros x Hx. destruct (I4 x Hx) as [|(c' & A & B & C)]; [left; assumption|].
        right. exists c'. auto with datatypes.
      * exact I5.
    + apply mem_false in E. destruct (H acc c E Hu) as (acc1 & R1 & P1); [apply Hl; left; reflexivity|].
      rewrite R1. destruct P1 as [J1 J2 J3 J4 J5].
      destruct (IH acc1) as (acc' & R & I1 & I2 & I3 & I4 & I5); auto with datatypes.
      { pose proof (unv_mono (spec_names s) _ _ J1). lia. }
      exists acc'. split; [exact R|]. split; [eapply incl_tran; eauto|]. split; [auto|]. split; [|split].
      * intros c' [<-|Hc] Hk; [apply I1; auto|]. apply I3; assumption.
      * intros x Hx. destruct (I4 x Hx) as [Hx1|(c' & A & B & C)].
        -- destruct (J4 x Hx1) as [|[K C]]; [left; assumption|]. right. exists c. auto with datatypes.
        -- right. exists c'. auto with datatypes.
      * intros x y Hx Hnx Ha Hk. destruct (in_dec string_dec x acc1) as [Hx1|Hx1].
        -- apply I1. destruct (J4 x Hx1) as [|[K C]]; [tauto|]. eapply J5; eauto.
        -- eapply I5; eauto.
Qed.

Lemma full_chain_gen s f n acc :
  unv (spec_names s) (add_item acc n) < f -> 
  exists acc', full_chain f s n acc = Some acc' /\ fc_post s n acc acc'.
Proof.
  revert n acc. induction f as [|f IH]; intros n acc Hu; [lia|]. simpl.
  destruct (aget s n) as [x|] eqn:E.
  2: { exists acc. split; [reflexivity|]. constructor; try tauto; auto using incl_refl.
       - intros [x C]. congruence.
       - intros x y _ _ [z C]. congruence. }
  destruct (aget_spec_names _ _ _ E) as [N1 N2].
  assert (K : known s n) by (exists x; exact E).
  assert (H : forall acc0 n0, ~ In n0 acc0 -> unv (spec_names s) acc0 <= f -> In n0 (spec_names s) ->
     exists acc', full_chain f s n0 acc0 = Some acc' /\ fc_post s n0 acc0 acc').
  { intros acc0 n0 H1 H2 H3. apply IH.
    assert (L : unv (spec_names s) (add_item acc0 n0) < unv (spec_names s) acc0).
    { apply unv_lt with n0; auto.
      - intros z Hz. apply In_add_item. right. exact Hz.
      - apply In_add_item. left. reflexivity. }
    lia. }
  destruct (chain_loop_spec s f H (following x) (add_item acc n)) as (acc1 & R1 & A1 & A2 & A3 & A4 & A5);
    [intros c Hc; apply N2; left; exact Hc | lia |].
  rewrite R1.
  destruct (chain_loop_spec s f H (preceding x) acc1) as (acc2 & R2 & B1 & B2 & B3 & B4 & B5);
    [intros c Hc; apply N2; right; exact Hc | |].
  { pose proof (unv_mono (spec_names s) _ _ A1). lia. }
  exists acc2. split; [exact R2|].
  assert (GL : get_links s n = x) by (unfold get_links; rewrite E; reflexivity).
  assert (I0 : incl acc (add_item acc n)) by (intros z Hz; apply In_add_item; right; exact Hz).
  constructor.
  - eapply incl_tran; [exact I0|]. eapply incl_tran; eassumption.
  - intros Hd. apply B2, A2, NoDup_add_item. exact Hd.
  - intros _. apply B1, A1, In_add_item. left. reflexivity.
  - intros z Hz.
    assert (S0 : forall c z, adj s n c -> known s c -> conn s c z -> conn s n z).
    { intros c z' Ha Hk Hc. eapply conn_trans; [|exact Hc]. eapply conn_step; [apply conn_refl|exact Ha|exact Hk]. }
    destruct (B4 z Hz) as [Hz1|(c & Hc & Kc & Cc)].
    + destruct (A4 z Hz1) as [Hz2|(c & Hc & Kc & Cc)].
      * apply In_add_item in Hz2. destruct Hz2 as [->|]; [right; split; [exact K|apply conn_refl]|left; assumption].
      * right. split; [exact K|]. eapply S0; eauto. left. rewrite GL. exact Hc.
    + right. split; [exact K|]. eapply S0; eauto. right. rewrite GL. exact Hc.
  - intros z y Hz Hn _ Ha Hk.
    destruct (string_dec z n) as [->|Hzn].
    + unfold adj in Ha. rewrite GL in Ha. destruct Ha as [Ha|Ha]; [apply B1, A3; assumption|apply B3; assumption].
    + destruct Hn as [Hn|]; [|contradiction].
      destruct (in_dec string_dec z acc1) as [Hz1|Hz1]; [|eapply B5; eauto].
      apply B1. eapply A5; eauto. rewrite In_add_item. intros [|]; tauto.
Qed.

(** The group computed for a controller: always terminates, exactly the connected controllers. *)
Lemma chain_group_spec s n : known s n ->
  exists l, full_chain (spec_fuel s) s n [n] = Some l /\ NoDup l /\ forall m, In m l <-> conn s n m.
Proof.
  intros K. destruct (full_chain_gen s (spec_fuel s) n [n]) as (l & R & P).
  { unfold spec_fuel. pose proof (unv_le (spec_names s) (add_item [n] n)). lia. }
  exists l. split; [exact R|]. destruct P as [P1 P2 P3 P4 P5]. split.
  - apply P2. constructor; [simpl; tauto|constructor].
  - intros m. split.
    + intros Hm. destruct (P4 m Hm) as [[<-|[]]|[_ C]]; [apply conn_refl|exact C].
    + intros C. induction C as [|b c C IH Ha Hk]; [apply P3; exact K|].
      apply (P5 b c IH); auto.
      destruct (string_dec b n) as [->|Hb]; [right; reflexivity|left; simpl; intros [<-|[]]; congruence].
Qed.

(** ------------------------------------------------------------------ the execution order *)
Lemma In_insert_at i x l y : In y (insert_at i x l) <-> y = x \/ In y l.
Proof.
  unfold insert_at. rewrite in_app_iff. simpl.
  rewrite <- (firstn_skipn i l) at 3. rewrite in_app_iff. intuition.
Qed.

Lemma NoDup_insert_at i x l : NoDup l -> ~ In x l -> NoDup (insert_at i x l).
Proof.
  intros H Hx. unfold insert_at. apply NoDup_Add with (a := x) (l := l).
  - rewrite <- (firstn_skipn i l) at 1. apply Add_app.
  - split; assumption.
Qed.

Record ul_post (s : spec) (n : name) (l l' : list name) : Prop := {
  up_incl : incl l l';
  up_nodup : NoDup l -> NoDup l';
  up_self : In n l';
  up_from : forall x, In x l' -> In x l \/ In x (spec_names s);
  up_closed : forall x y, In x l' -> ~ In x l -> adj s x y -> In y l'
}.

Lemma order_loop_spec s f (H : forall n it app l, In n (spec_names s) -> unv (spec_names s) l <= f ->
    exists l', update_list f s n it app l = Some l' /\ ul_post s n l l') :
  forall n app cs l, (forall c, In c cs -> In c (spec_names s)) -> unv (spec_names s) l <= f ->
  exists l', order_loop (update_list f s) n app cs l = Some l' /\ incl l l' /\ (NoDup l -> NoDup l') /\
    (forall c, In c cs -> In c l') /\ (forall x, In x l' -> In x l \/ In x (spec_names s)) /\
    (forall x y, In x l' -> ~ In x l -> adj s x y -> In y l').
Proof.
  intros n app cs. induction cs as [|c cs IH]; intros l Hc Hu; cbn [order_loop].
  - exists l. repeat split; auto using incl_refl; simpl; try tauto.
  - destruct (H c (pos n l) app l) as (l1 & R1 & [P1 P2 P3 P4 P5]); auto with datatypes.
    rewrite R1.
    destruct (IH l1) as (l2 & R2 & Q1 & Q2 & Q3 & Q4 & Q5); auto with datatypes.
    { pose proof (unv_mono (spec_names s) _ _ P1). lia. }
    exists l2. split; [exact R2|]. split; [eapply incl_tran; eauto|]. split; [auto|]. split; [|split].
    + intros c' [<-|Hc']; [apply Q1; exact P3|apply Q3; exact Hc'].
    + intros x Hx. destruct (Q4 x Hx) as [Hx1|]; [apply P4; exact Hx1|right; assumption].
    + intros x y Hx Hn Ha. destruct (in_dec string_dec x l1) as [Hx1|Hx1].
      * apply Q1. eapply P5; eauto.
      * eapply Q5; eauto.
Qed.

Lemma update_list_gen s f : forall n it app l, In n (spec_names s) -> unv (spec_names s) l <= f ->
    exists l', update_list f s n it app l = Some l' /\ ul_post s n l l'.
Proof.
  induction f as [|f IH]; intros n it app l Hn Hu; cbn [update_list].
  - destruct (mem n l) eqn:E.
    + exists l. split; [reflexivity|]. apply mem_In in E. constructor; auto using incl_refl; tauto.
    + apply mem_false in E. pose proof (unv_pos _ _ _ Hn E). lia.
  - destruct (mem n l) eqn:E.
    + exists l. split; [reflexivity|]. apply mem_In in E. constructor; auto using incl_refl; tauto.
    + apply mem_false in E. set (x := get_links s n). set (l1 := insert_at _ n l).
      assert (I1 : incl l l1) by (intros z Hz; apply In_insert_at; right; exact Hz).
      assert (N1 : In n l1) by (apply In_insert_at; left; reflexivity).
      assert (U1 : unv (spec_names s) l1 <= f).
      { pose proof (unv_lt (spec_names s) _ _ n I1 Hn E N1). lia. }
      assert (AX : forall c, In c (following x) \/ In c (preceding x) -> In c (spec_names s)).
      { intros c Hc. apply (adj_spec_names s n c). exact Hc. }
      destruct (order_loop_spec s f IH n true (following x) l1) as (l2 & R2 & A1 & A2 & A3 & A4 & A5); auto.
      rewrite R2.
      destruct (order_loop_spec s f IH n false (preceding x) l2) as (l3 & R3 & B1 & B2 & B3 & B4 & B5); auto.
      { pose proof (unv_mono (spec_names s) _ _ A1). lia. }
      exists l3. split; [exact R3|]. constructor.
      * eapply incl_tran; [exact I1|]. eapply incl_tran; eauto.
      * intros Hd. apply B2, A2. apply NoDup_insert_at; assumption.
      * apply B1, A1, N1.
      * intros z Hz. destruct (B4 z Hz) as [Hz2|]; [|right; assumption].
        destruct (A4 z Hz2) as [Hz1|]; [|right; assumption].
        apply In_insert_at in Hz1. destruct Hz1 as [->|]; [right; exact Hn|left; assumption].
      * intros z y Hz Hnz Ha.
        destruct (in_dec string_dec z l2) as [Hz2|Hz2]; [|eapply B5; eauto].
        destruct (in_dec string_dec z l1) as [Hz1|Hz1]; [|apply B1; eapply A5; eauto].
        apply In_insert_at in Hz1. destruct Hz1 as [->|]; [|tauto].
        destruct Ha as [Ha|Ha]; [apply B1, A3; exact Ha|apply B3; exact Ha].
Qed.

Lemma aget_In {A} (m : alist A) k : In k (map fst m) <-> exists v, aget m k = Some v.
Proof.
  induction m as [|[k' v'] m IH]; simpl.
  - split; [tauto|intros [v C]; discriminate].
  - destruct (String.eqb_spec k k') as [->|Hn].
    + split; eauto.
    + rewrite <- IH. split; [intros [|]; congruence|auto].
Qed.

Lemma order_all_gen s : forall keys l, incl keys (map fst s) ->
  exists l', order_all s keys l = Some l' /\ incl l l' /\ (NoDup l -> NoDup l') /\ incl keys l' /\
    (forall x, In x l' -> In x l \/ In x (spec_names s)).
Proof.
  induction keys as [|k ks IH]; intros l Hk; cbn [order_all].
  - exists l. repeat split; auto using incl_refl; simpl; try tauto. intros x [].
  - assert (Kn : In k (spec_names s)).
    { assert (H : In k (map fst s)) by (apply Hk; left; reflexivity).
      apply aget_In in H. destruct H as [v H]. apply aget_spec_names in H. exact (proj1 H). }
    destruct (update_list_gen s (spec_fuel s) k (length l) false l Kn) as (l1 & R1 & [P1 P2 P3 P4 P5]).
    { unfold spec_fuel. pose proof (unv_le (spec_names s) l). lia. }
    rewrite R1. destruct (IH l1) as (l2 & R2 & Q1 & Q2 & Q3 & Q4).
    { intros z Hz. apply Hk. right. exact Hz. }
    exists l2. split; [exact R2|]. split; [eapply incl_tran; eauto|]. split; [auto|]. split.
    + intros z [<-|Hz]; [apply Q1; exact P3|apply Q3; exact Hz].
    + intros x Hx. destruct (Q4 x Hx) as [Hx1|]; [apply P4; exact Hx1|right; assumption].
Qed.

(** ------------------------------------------------------------------ forests are ordered *)
Definition prec (a b : name) (l : list name) : Prop := exists l1 l2 l3, l = l1 ++ a :: l2 ++ b :: l3.

Lemma prec_insert a b i x l : prec a b l -> prec a b (insert_at i x l).
Proof.
  intros (l1 & l2 & l3 & ->). unfold insert_at.
  set (L := l1 ++ a :: l2 ++ b :: l3).
  assert (H : Add x L (firstn i L ++ x :: skipn i L)).
  { rewrite <- (firstn_skipn i L) at 1. apply Add_app. }
  destruct (Add_split H) as (p & q & E1 & E2). rewrite E2. clear H E2. subst L.
  revert p q E1. induction l1 as [|z l1 IH]; intros p q E1; simpl in E1.
  - destruct p as [|p0 p]; simpl in E1.
    + subst q. exists [x], l2, l3. reflexivity.
    + injection E1 as <- E1.
      revert p q E1. induction l2 as [|z l2 IH2]; intros p q E1; simpl in E1.
      * destruct p as [|p0 p]; simpl in E1.
        -- subst q. exists [], [x], l3. reflexivity.
        -- injection E1 as <- E1. exists [], [], (p ++ x :: q). reflexivity.
      * destruct p as [|p0 p]; simpl in E1.
        -- subst q. exists [], (x :: z :: l2), l3. reflexivity.
        -- injection E1 as <- E1. destruct (IH2 _ _ E1) as (m1 & m2 & m3 & E).
           destruct m1 as [|m0 m1]; simpl in E.
           ++ injection E as E. exists [], (z :: m2), m3. simpl. rewrite E. reflexivity.
           ++ injection E as E0 E. subst m0. exists (a :: z :: m1), m2, m3. simpl. rewrite E. reflexivity.
  - destruct p as [|p0 p]; simpl in E1.
    + subst q. exists (x :: z :: l1), l2, l3. reflexivity.
    + injection E1 as <- E1. destruct (IH _ _ E1) as (m1 & m2 & m3 & E).
      exists (z :: m1), m2, m3. simpl. rewrite E. reflexivity.
Qed.

Lemma split_pos x l : In x l -> exists l1 l2, l = l1 ++ x :: l2 /\ pos x l = length l1.
Proof.
  induction l as [|y l IH]; simpl; [tauto|]. intros H.
  destruct (String.eqb_spec x y) as [->|Hn].
  - exists [], l. auto.
  - destruct H as [|H]; [congruence|]. destruct (IH H) as (l1 & l2 & -> & E).
    exists (y :: l1), l2. simpl. rewrite E. auto.
Qed.

Lemma insert_after x c l : In x l -> prec x c (insert_at (S (pos x l)) c l).
Proof.
  intros H. destruct (split_pos x l H) as (l1 & l2 & -> & ->).
  unfold insert_at. exists l1, [], l2.
  replace (S (length l1)) with (length (l1 ++ [x])) by (rewrite app_length; simpl; lia).
  replace (l1 ++ x :: l2) with ((l1 ++ [x]) ++ l2) by (rewrite <- app_assoc; reflexivity).
  rewrite firstn_app, Nat.sub_diag, firstn_all, skipn_app, Nat.sub_diag, skipn_all. simpl.
  rewrite <- !app_assoc. simpl. reflexivity.
Qed.

Lemma insert_before x c l : In x l -> prec c x (insert_at (pos x l) c l).
Proof.
  intros H. destruct (split_pos x l H) as (l1 & l2 & -> & ->).
  unfold insert_at. exists l1, [], l2.
  rewrite firstn_app, Nat.sub_diag, firstn_all, skipn_app, Nat.sub_diag, skipn_all. simpl.
  rewrite app_nil_r. reflexivity.
Qed.

Lemma min_following_same l it fs :
  (forall c, In c fs -> In c l -> it <= pos c l) -> min_following l it fs = it.
Proof.
  revert it. unfold min_following. induction fs as [|c fs IH]; intros it H; simpl; [reflexivity|].
  assert (E : mem c l && Nat.ltb (pos c l) it = false).
  { destruct (mem c l) eqn:M; [|reflexivity]. apply mem_In in M. simpl. apply Nat.ltb_ge.
    apply H; [left; reflexivity|exact M]. }
  rewrite E. apply IH. intros c' H1 H2. apply H; [right; exact H1|exact H2].
Qed.
Lemma max_preceding_same l it fs :
  (forall c, In c fs -> In c l -> pos c l <= it) -> max_preceding l it fs = it.
Proof.
  revert it. unfold max_preceding. induction fs as [|c fs IH]; intros it H; simpl; [reflexivity|].
  assert (E : mem c l && Nat.ltb it (pos c l) = false).
  { destruct (mem c l) eqn:M; [|reflexivity]. apply mem_In in M. simpl. apply Nat.ltb_ge.
    apply H; [left; reflexivity|exact M]. }
  rewrite E. apply IH. intros c' H1 H2. apply H; [right; exact H1|exact H2].
Qed.

(** walks whose nodes all satisfy P *)
Inductive walk (s : spec) (P : name -> Prop) (a : name) : name -> Prop :=
| walk_refl : P a -> walk s P a a
| walk_step b c : walk s P a b -> adj s b c -> P c -> walk s P a c.

Lemma walk_mono s (P Q : name -> Prop) a b : (forall x, P x -> Q x) -> walk s P a b -> walk s Q a b.
Proof. intros H W. induction W; [apply walk_refl; auto|eapply walk_step; eauto]. Qed.
Lemma walk_trans s P a b c : walk s P a b -> walk s P b c -> walk s P a c.
Proof. intros H W. induction W; [exact H|eapply walk_step; eauto]. Qed.
Lemma walk_end s P a b : walk s P a b -> P a /\ P b.
Proof. intros W. induction W; tauto. Qed.

(** The links are those of a chain topology: following/preceding mirror each other. *)
Definition mirrored (s : spec) : Prop :=
  forall a b, In b (following (get_links s a)) <-> In a (preceding (get_links s b)).

(** no cycles, not even undirected ones *)
Definition forest (s : spec) : Prop :=
  (forall a, ~ adj s a a) /\
  (forall a b, In b (following (get_links s a)) -> ~ In b (preceding (get_links s a))) /\
  (forall c x y, adj s c x -> adj s c y -> walk s (fun z => z <> c) x y -> x = y).

Lemma adj_sym s a b : mirrored s -> adj s a b -> adj s b a.
Proof. intros M [H|H]; [right; apply M; exact H|left; apply M; exact H]. Qed.

Lemma walk_sym s P a b : mirrored s -> walk s P a b -> walk s P b a.
Proof.
  intros M W. induction W as [H|b c W IH Ha Hc]; [apply walk_refl; exact H|].
  apply walk_trans with b; [|exact IH].
  destruct (walk_end _ _ _ _ W). eapply walk_step; [apply walk_refl; exact Hc|apply adj_sym; assumption|assumption].
Qed.

Section Forest.
Variable s : spec.
Hypothesis M : mirrored s.
Hypothesis F : forest s.

Definition whole := fun _ : name => True.
(** listed and connected controllers are connected within the list *)
Definition inlist (l : list name) : Prop :=
  forall x y, In x l -> In y l -> walk s whole x y -> walk s (fun z => In z l) x y.
Definition ordered (l : list name) : Prop :=
  forall a b, In a l -> In b l -> In b (following (get_links s a)) -> prec a b l.

(** what a call may assume about its insertion point *)
Definition anchored (n : name) (it : nat) (app : bool) (l : list name) : Prop :=
  (it = length l /\ app = false /\ forall y, In y l -> ~ walk s whole n y) \/
  (exists x, In x l /\ it = pos x l /\
     ((app = true /\ In n (following (get_links s x))) \/ (app = false /\ In n (preceding (get_links s x))))).

Lemma anchor_adj n x app :
  ((app = true /\ In n (following (get_links s x))) \/ (app = false /\ In n (preceding (get_links s x)))) -> adj s x n.
Proof. intros [[_ H]|[_ H]]; [left|right]; exact H. Qed.

Lemma only_anchor n x l y : inlist l -> ~ In n l -> In x l -> adj s x n -> In y l -> adj s n y -> y = x.
Proof.
  intros I Hn Hx Ha Hy Hb. destruct F as (_ & _ & F3). symmetry.
  apply (F3 n x y); [apply adj_sym; assumption|exact Hb|].
  apply walk_mono with (P := fun z => In z l); [intros z Hz ->; contradiction|].
  apply I; auto. eapply walk_step; [eapply walk_step; [apply walk_refl; exact Logic.I|exact Ha|exact Logic.I]|exact Hb|exact Logic.I].
Qed.

Lemma pos_length x l : In x l -> pos x l < length l.
Proof. intros H. destruct (split_pos x l H) as (l1 & l2 & -> & ->). rewrite app_length. simpl. lia. Qed.

Lemma insert_ok n it app l : ~ In n l -> inlist l -> ordered l -> anchored n it app l ->
  let x := get_links s n in
  let it1 := min_following l it (following x) in
  let it2 := max_preceding l it1 (preceding x) in
  let l1 := insert_at (if app then S it2 else it2) n l in
  inlist l1 /\ ordered l1.
Proof.
  intros Hn I O A x it1 it2 l1.
  destruct F as (F1 & F2 & F3).
  destruct A as [(-> & -> & A)|(p & Hp & -> & A)].
  - assert (NA : forall y, In y l -> ~ adj s n y).
    { intros y Hy Ha. apply (A y Hy). eapply walk_step; [apply walk_refl; exact Logic.I|exact Ha|exact Logic.I]. }
    split.
    + intros a b Ha Hb W. apply In_insert_at in Ha, Hb.
      destruct Ha as [->|Ha], Hb as [->|Hb].
      * apply walk_refl. apply In_insert_at. auto.
      * exfalso. eapply A; eauto.
      * exfalso. eapply A; [exact Ha|]. apply walk_sym; assumption.
      * eapply walk_mono; [|apply I; eauto]. intros z Hz. apply In_insert_at. auto.
    + intros a b Ha Hb Hf. apply In_insert_at in Ha, Hb.
      destruct Ha as [->|Ha], Hb as [->|Hb].
      * exfalso. apply (F1 n). left. exact Hf.
      * exfalso. apply (NA b Hb). left. exact Hf.
      * exfalso. apply (NA a Ha). right. apply M. exact Hf.
      * apply prec_insert. apply O; assumption.
  - assert (Ad : adj s p n) by (eapply anchor_adj; eauto).
    assert (OA : forall y, In y l -> adj s n y -> y = p) by (intros y Hy Hb; eapply only_anchor; eauto).
    assert (E1 : it1 = pos p l).
    { apply min_following_same. intros c Hc Hcl. rewrite (OA c Hcl); [lia|]. left. exact Hc. }
    assert (E2 : it2 = pos p l).
    { unfold it2. rewrite E1. apply max_preceding_same. intros c Hc Hcl. rewrite (OA c Hcl); [lia|]. right. exact Hc. }
    subst l1. rewrite E2. clear it1 it2 E1 E2. split.
    + intros a b Ha Hb W. set (l1 := insert_at _ n l) in *.
      assert (In1 : In n l1) by (apply In_insert_at; auto).
      assert (Inl : forall z, In z l -> In z l1) by (intros z Hz; apply In_insert_at; auto).
      assert (Wpn : walk s (fun z => In z l1) p n).
      { eapply walk_step; [apply walk_refl; apply Inl; exact Hp|exact Ad|exact In1]. }
      assert (Wpn' : walk s whole p n) by (eapply walk_mono; [|exact Wpn]; intros; exact Logic.I).
      apply In_insert_at in Ha, Hb. destruct Ha as [->|Ha], Hb as [->|Hb].
      * apply walk_refl. exact In1.
      * eapply walk_trans; [apply walk_sym; [exact M|exact Wpn]|].
        eapply walk_mono; [exact Inl|]. apply I; auto. eapply walk_trans; eassumption.
      * eapply walk_trans; [|exact Wpn].
        eapply walk_mono; [exact Inl|]. apply I; auto.
        eapply walk_trans; [exact W|]. apply walk_sym; assumption.
      * eapply walk_mono; [exact Inl|]. apply I; auto.
    + intros a b Ha Hb Hf. apply In_insert_at in Ha, Hb.
      destruct Ha as [->|Ha], Hb as [->|Hb].
      * exfalso. apply (F1 n). left. exact Hf.
      * assert (b = p) by (apply OA; [exact Hb|left; exact Hf]). subst b.
        destruct A as [[-> A]|[-> A]].
        -- exfalso. apply M in A. apply (F2 n p Hf A).
        -- apply insert_before. exact Hp.
      * assert (a = p) by (apply OA; [exact Ha|right; apply M; exact Hf]). subst a.
        destruct A as [[-> A]|[-> A]].
        -- apply insert_after. exact Hp.
        -- exfalso. apply (F2 p n Hf A).
      * apply prec_insert. apply O; assumption.
Qed.

Lemma update_list_forest f : forall n it app l l', inlist l -> ordered l ->
  (In n l \/ anchored n it app l) -> update_list f s n it app l = Some l' ->
  inlist l' /\ ordered l' /\ incl l l' /\ In n l'.
Proof.
  induction f as [|f IH]; intros n it app l l' I O A H; cbn [update_list] in H.
  - destruct (mem n l) eqn:E; [|discriminate]. injection H as <-. apply mem_In in E. auto using incl_refl.
  - destruct (mem n l) eqn:E.
    + injection H as <-. apply mem_In in E. auto using incl_refl.
    + apply mem_false in E. destruct A as [A|A]; [contradiction|].
      destruct (insert_ok n it app l E I O A) as [I1 O1].
      set (l1 := insert_at _ n l) in *.
      assert (In1 : In n l1) by (apply In_insert_at; auto).
      assert (Inc : incl l l1) by (intros z Hz; apply In_insert_at; auto).
      assert (L : forall app0 cs l0 l0', inlist l0 -> ordered l0 -> In n l0 ->
         (forall c, In c cs -> (app0 = true /\ In c (following (get_links s n))) \/
                               (app0 = false /\ In c (preceding (get_links s n)))) ->
         order_loop (update_list f s) n app0 cs l0 = Some l0' -> inlist l0' /\ ordered l0' /\ incl l0 l0').
      { intros app0 cs. induction cs as [|c cs IHc]; intros l0 l0' I0 O0 N0 Hcs R; cbn [order_loop] in R.
        - injection R as <-. auto using incl_refl.
        - destruct (update_list f s c (pos n l0) app0 l0) as [l2|] eqn:R1; [|discriminate].
          apply IH in R1; auto.
          + destruct R1 as (I2 & O2 & C2 & _). apply IHc in R; auto with datatypes.
            destruct R as (I3 & O3 & C3). split; [exact I3|]. split; [exact O3|]. eapply incl_tran; eauto.
          + right. right. exists n. split; [exact N0|]. split; [reflexivity|]. apply Hcs. left. reflexivity. }
      destruct (order_loop (update_list f s) n true (following (get_links s n)) l1) as [l2|] eqn:R2; [|discriminate].
      apply L in R2; auto. destruct R2 as (I2 & O2 & C2).
      apply L in H; auto. destruct H as (I3 & O3 & C3).
      split; [exact I3|]. split; [exact O3|]. split; [|apply C3, C2, In1].
      eapply incl_tran; [exact Inc|]. eapply incl_tran; eauto.
Qed.

Definition closed (l : list name) : Prop := forall x y, In x l -> adj s x y -> In y l.

Lemma order_all_forest : forall keys l l', incl keys (map fst s) -> inlist l -> ordered l -> closed l ->
  order_all s keys l = Some l' -> ordered l'.
Proof.
  induction keys as [|k ks IH]; intros l l' Hk I O C H; cbn [order_all] in H; [injection H as <-; exact O|].
  assert (Kn : In k (spec_names s)).
  { assert (H0 : In k (map fst s)) by (apply Hk; left; reflexivity).
    apply aget_In in H0. destruct H0 as [v H0]. apply aget_spec_names in H0. exact (proj1 H0). }
  destruct (update_list_gen s (spec_fuel s) k (length l) false l Kn) as (l1 & R1 & [P1 P2 P3 P4 P5]).
  { unfold spec_fuel. pose proof (unv_le (spec_names s) l). lia. }
  rewrite R1 in H.
  destruct (update_list_forest (spec_fuel s) k (length l) false l l1 I O) as (I1 & O1 & _ & _); [|exact R1|].
  { destruct (in_dec string_dec k l) as [Hin|Hin]; [left; exact Hin|right; left].
    split; [reflexivity|]. split; [reflexivity|]. intros y Hy W. apply Hin.
    apply walk_sym in W; [|exact M]. clear - W Hy C.
    induction W as [|b c W IHW Ha]; [exact Hy|]. eapply C; eauto. }
  apply IH in H; auto.
  - intros z Hz. apply Hk. right. exact Hz.
  - intros x y Hx Ha. destruct (in_dec string_dec x l) as [Hl|Hl].
    + apply P1. eapply C; eauto.
    + eapply P5; eauto.
Qed.
End Forest.
