(** RtProofs.v -- the invariant of the two threads. *)
From Coq Require Import List Bool String Arith Lia.
Import ListNotations.
From Verif Require Import Base RtModel RtSpec.
Open Scope list_scope.

Definition win (r : rpc) : bool :=
  match r with RChk _ _ _ | RSkp _ _ _ | RTa _ | RRdy _ | RLk _ => true | _ => false end.
Definition rman (r : rpc) : bool := match r with RMan _ => true | _ => false end.
Definition rlk (r : rpc) : bool := match r with RLk _ => true | _ => false end.
Definition nskp (r : rpc) : bool := match r with RSkp _ _ _ | RRdy _ => true | _ => false end.
Definition mph (t : tid) (k : mpc) (r : req) : phase :=
  match k with
  | MPerf => PPosted r | MLoad | MStore _ | MDeact _ => PStep r t 0
  | MLoadT _ | MStoreT _ _ | MTo _ _ => PStep r t 1
  | MLoadF _ | MStoreF _ _ | MFrom _ _ => PStep r t 2
  | MAct _ => PStep r t 3 | MDone => PStep r t 4 | MUnlock => PSwitched r end.
Definition mend (k : mpc) : bool := match k with MUnlock => false | _ => true end.
Definition mses (k : mpc) : list sess :=
  match k with MDeact x | MLoadT x | MStoreT x _ | MLoadF x | MStoreF x _ | MAct x => [x]
  | MTo x y | MFrom x y => [x; y] | _ => [] end.
Definition midx (k : mpc) : option bool :=
  match k with MStore i | MStoreT _ i | MStoreF _ i => Some i | _ => None end.
Definition ses (r : rpc) : list sess :=
  match r with RPl x | RLp x _ | RChk x _ _ | RSkp x _ _ | RUpd x _ _ | RTa x | RRdy x | RLk x => [x]
  | RMan k => mses k | _ => [] end.
Definition updating (r : rpc) : option name := match r with RUpd _ _ c => Some c | _ => None end.

(** the lists *)
Definition LInv (s : st) (pubs : list (list name)) : Prop :=
  (exists p, pubs = lst s (upd s) :: p /\
     forall k f, sv s = SWait k f -> f = negb (upd s) /\ exists p', p = lst s f :: p') /\
  (forall u, used s = Some u -> u = upd s \/ exists k, sv s = SWait k u) /\
  (forall b i, rt s = RLd b i -> i = upd s \/ used s = Some i) /\
  (forall x, In x (ses (rt s)) -> used s = Some (fst x) /\ lst s (fst x) = snd x) /\
  (forall k, rt s = RMan k -> used s = Some (upd s) /\ forall i, midx k = Some i -> i = upd s) /\
  (forall k, sv s = SMan k -> (forall i, midx k = Some i -> i = upd s) /\
     forall x, In x (mses k) -> fst x = upd s /\ snd x = lst s (upd s)) /\
  (rt s <> RIdle -> (forall b i, rt s <> RLd b i) -> used s <> None) /\
  (forall k, sv s = SMod k \/ sv s = SClearL k -> used s <> Some (negb (upd s))).

Definition quiet (s : st) : Prop := win (rt s) = false /\ rman (rt s) = false /\ mtx s = None.
Definition free (s : st) (p : phase) : Prop := do_switch s = false /\ p = PFree /\ quiet s.
Definition asapB (s : st) (p : phase) (m : option tid) : Prop :=
  asap s = true /\ r_asap (q s) = true /\
  match rt s with
  | RMan k => m = None /\ mtx s = Some TRt /\ do_switch s = mend k /\ p = mph TRt k (q s)
  | r => nskp r = false /\ mtx s = m /\
         (do_switch s = true /\ p = PPosted (q s) \/ do_switch s = false /\ win r = false /\ p = PSwitched (q s))
  end.
Definition noupd (s : st) : Prop := forall c, updating (rt s) = Some c -> skips (q s) c = false.
Definition slowC (s : st) : Prop :=
  asap s = false /\ r_asap (q s) = false /\ rman (rt s) = false /\ rlk (rt s) = false.
Definition after (s : st) (p : phase) : Prop :=
  do_switch s = false /\ p = PSwitched (q s) /\ mtx s = None /\ rman (rt s) = false /\ rlk (rt s) = false /\
  (win (rt s) = true -> asap s = false).
Definition SInv (s : st) (p : phase) : Prop :=
  match sv s with
  | SIdle | SFill | SSetAsap | SGet false | SMod false | SWait false _ | SGet2 false | SClearL false => free s p
  | SClr1 RRejected | SClr2 RRejected | SClr3 RRejected | SClr4 RRejected => free s p
  | SSetReady => free s p /\ asap s = r_asap (q s)
  | SSetDo => free s p /\ asap s = r_asap (q s) /\ ready s = false
  | SLock | SWaiting | SRelock _ => asapB s p None
  | SCheck _ => asapB s p (Some TSv)
  | SSpin => slowC s /\ mtx s = None /\ do_switch s = true /\ p = PPosted (q s) /\ (ready s = true -> noupd s)
  | STry => slowC s /\ mtx s = None /\ do_switch s = true /\ p = PPosted (q s) /\ noupd s
  | SMan k => slowC s /\ mtx s = Some TSv /\ do_switch s = mend k /\ p = mph TSv k (q s) /\
              (mend k = true -> noupd s)
  | SGet true | SMod true => after s p
  | SWait true f => after s p /\ (win (rt s) = true -> used s = Some f)
  | SGet2 true | SClearL true | SClr1 ROk => after s p /\ win (rt s) = false
  | SClr1 RTimeout => p = PPosted (q s) /\ do_switch s = true /\ rman (rt s) = false /\ 
      (asap s = true /\ mtx s = Some TSv /\ nskp (rt s) = false \/
       asap s = false /\ mtx s = None /\ rlk (rt s) = false)
  | SClr2 RTimeout | SClr3 RTimeout | SClr4 RTimeout =>
      (exists r, p = PPosted r) /\ do_switch s = false /\ win (rt s) = false /\ rman (rt s) = false /\
      (mtx s = None \/ mtx s = Some TSv)
  | SClr2 ROk | SClr3 ROk | SClr4 ROk => (exists r, p = PSwitched r) /\ do_switch s = false /\ quiet s
  end.
Definition seen_l (s : st) (pubs : list (list name)) : Prop :=
  forall h, list_ok pubs h -> list_ok [[]] (rev (log s) ++ h).
Definition seen_s (s : st) (p : phase) (u : option name) : Prop :=
  forall h, switch_ok p u h -> switch_ok PFree None (rev (log s) ++ h).
Definition Inv (s : st) : Prop := exists pubs p,
  seen_l s pubs /\ seen_s s p (updating (rt s)) /\ LInv s pubs /\ SInv s p.

Lemma skips_concerns q c : skips q c = false -> ~ concerns q c.
Proof.
  unfold skips, concerns. intros H. rewrite !orb_false_iff in H. destruct H as [[[A B] C] D].
  rewrite <- !mem_In. intros [E|[E|[E|E]]]; congruence.
Qed.
Lemma start_inv : Inv start.
Proof.
  exists [[]], PFree. split; [|split; [|split]].
  - intros h H. exact H.
  - intros h H. exact H.
  - unfold LInv. cbn. split; [exists []; split; [reflexivity|discriminate]|].
    split; [discriminate|]. split; [discriminate|]. split; [intros x []|]. split; [discriminate|].
    split; [discriminate|]. split; [intros N; contradiction N; reflexivity|]. intros k [A|A]; discriminate.
  - cbn. repeat split.
Qed.
(** *** the real-time thread *)
Lemma seen_l_ev s s' pubs pubs' e : seen_l s pubs -> log s' = e :: log s ->
  (forall h, list_ok pubs' h -> list_ok pubs (e :: h)) -> seen_l s' pubs'.
Proof. intros H L K h Hh. rewrite L. cbn [rev]. rewrite <- app_assoc. cbn. apply H. apply K. exact Hh. Qed.
Lemma seen_s_ev s s' p u p' u' e : seen_s s p u -> log s' = e :: log s ->
  (forall h, switch_ok p' u' h -> switch_ok p u (e :: h)) -> seen_s s' p' u'.
Proof. intros H L K h Hh. rewrite L. cbn [rev]. rewrite <- app_assoc. cbn. apply H. apply K. exact Hh. Qed.
Lemma seen_l_id s s' pubs : seen_l s pubs -> log s' = log s -> seen_l s' pubs.
Proof. intros H L h. rewrite L. apply H. Qed.
Lemma seen_s_id s s' p u : seen_s s p u -> log s' = log s -> seen_s s' p u.
Proof. intros H L h. rewrite L. apply H. Qed.

(** a step of the real-time thread that does not obtain a list *)
Lemma L_same s s' pubs : LInv s pubs ->
  l0 s' = l0 s -> l1 s' = l1 s -> upd s' = upd s -> used s' = used s -> sv s' = sv s ->
  (forall b i, rt s' = RLd b i -> i = upd s) ->
  (forall x, In x (ses (rt s')) -> In x (ses (rt s))) ->
  (forall k, rt s' = RMan k -> used s = Some (upd s) /\ forall i, midx k = Some i -> i = upd s) ->
  (rt s' <> RIdle -> (forall b i, rt s' <> RLd b i) -> rt s <> RIdle /\ forall b i, rt s <> RLd b i) ->
  LInv s' pubs.
Proof.
  intros (A&B&C&D&E&F&G&M) E0 E1 EU Eu Ev HL HS HM HN. unfold LInv.
  assert (EL : forall i, lst s' i = lst s i) by (intros []; cbn; assumption).
  rewrite EU, Eu, Ev. split; [|split; [|split; [|split; [|split; [|split; [|split]]]]]].
  - destruct A as (p&A1&A2). exists p. rewrite EL. split; [exact A1|]. intros k f H. rewrite EL. exact (A2 k f H).
  - exact B.
  - intros b i H. left. exact (HL b i H).
  - intros x H. rewrite EL. exact (D x (HS x H)).
  - exact HM.
  - intros k H. rewrite EL. exact (F k H).
  - intros N1 N2. destruct (HN N1 N2) as [X Y]. exact (G X Y).
  - exact M.
Qed.
(** a step in which a list is obtained *)
Lemma L_take s s' pubs i : LInv s pubs -> (i = upd s \/ used s = Some i) ->
  l0 s' = l0 s -> l1 s' = l1 s -> upd s' = upd s -> used s' = Some i -> sv s' = sv s ->
  (forall b j, rt s' <> RLd b j) ->
  (forall x, In x (ses (rt s')) -> x = (i, lst s i) \/ In x (ses (rt s)) /\ used s = Some i) ->
  (forall k, rt s' = RMan k -> i = upd s /\ forall j, midx k = Some j -> j = upd s) ->
  LInv s' pubs.
Proof.
  intros (A&B&C&D&E&F&G&M) Hi E0 E1 EU Eu Ev HL HS HM. unfold LInv.
  assert (EL : forall i, lst s' i = lst s i) by (intros []; cbn; assumption).
  rewrite EU, Eu, Ev. split; [|split; [|split; [|split; [|split; [|split; [|split]]]]]].
  - destruct A as (p&A1&A2). exists p. rewrite EL. split; [exact A1|]. intros k f H. rewrite EL. exact (A2 k f H).
  - intros u [= <-]. destruct Hi as [->|Hi]; [left; reflexivity|]. exact (B i Hi).
  - intros b j H. exfalso. exact (HL b j H).
  - intros x H. rewrite EL. destruct (HS x H) as [->|[H' U]]; [cbn; split; reflexivity|].
    destruct (D x H') as [D1 D2]. rewrite U in D1. split; [exact D1|exact D2].
  - intros k H. destruct (HM k H) as [-> X]. split; [reflexivity|exact X].
  - intros k H. rewrite EL. exact (F k H).
  - discriminate.
  - intros k H [= ->]. destruct Hi as [Hi|Hi]; [destruct (upd s); discriminate|]. exact (M k H Hi).
Qed.
Lemma begin_ok s pubs i : LInv s pubs -> (i = upd s \/ used s = Some i) -> In (lst s i) (firstn 2 pubs).
Proof.
  intros (A&B&_) H. destruct A as (p&->&A2).
  assert (H2 : i = upd s \/ exists k, sv s = SWait k i) by (destruct H as [H|H]; [auto|exact (B i H)]).
  destruct H2 as [->|[k H2]]; [left; reflexivity|]. destruct (A2 k i H2) as (_&p'&->). right. left. reflexivity.
Qed.
Ltac sdes s := destruct s as [a0 a1 up us ds rd ap qq mx r v lg]; cbn [rt sv used upd do_switch ready asap q mtx log l0 l1] in *.
Ltac ub := unfold SInv, free, quiet, asapB, slowC, after, noupd in *; cbn in *.
Ltac vcases v := destruct v as [|[] |[] |[] f|[] |[] | | | | | |to| |to| | |k|[] |[] |[] |[] ].
(** steps that change only where the real-time thread is (and the list index) *)
Lemma S_move s s' p : SInv s p ->
  do_switch s' = do_switch s -> ready s' = ready s -> asap s' = asap s -> q s' = q s -> mtx s' = mtx s -> sv s' = sv s ->
  rman (rt s) = false -> rman (rt s') = false ->
  (* a new reaction starts only if the flag was seen, and goes on as the options say *)
  (win (rt s') = true -> win (rt s) = true \/ do_switch s = true) ->
  (win (rt s') = true -> used s' = used s) ->
  (rlk (rt s') = true -> asap s = true \/ rlk (rt s) = true) ->
  (nskp (rt s') = true -> asap s = false \/ nskp (rt s) = true) ->
  (updating (rt s') = None \/ do_switch s = false \/ asap s = true \/
   exists c, updating (rt s') = Some c /\ skips (q s) c = false) ->
  SInv s' p.
Proof.
  intros H E1 E2 E3 E4 E5 E6 M M' W U K N P. destruct s as [a0 a1 up us ds rd ap qq mx r v lg], s' as [a0' a1' up' us' ds' rd' ap' qq' mx' r' v' lg'].
  cbn [rt sv used upd do_switch ready asap q mtx log l0 l1] in *. subst ds' rd' ap' qq' mx' v'.
  assert (NM : forall k, r <> RMan k) by (intros k ->; discriminate).
  assert (NM' : forall k, r' <> RMan k) by (intros k ->; discriminate).
  assert (BB : forall m, asapB (St a0 a1 up us ds rd ap qq mx r v lg) p m ->
               asapB (St a0' a1' up' us' ds rd ap qq mx r' v lg') p m).
  { clear H. intros m H. unfold asapB in *. cbn in *. destruct H as (A&B&C). split; [exact A|]. split; [exact B|].
    assert (C' : nskp r = false /\ mx = m /\ (ds = true /\ p = PPosted qq \/ ds = false /\ win r = false /\ p = PSwitched qq))
      by (destruct r; try exact C; discriminate). clear C.
    assert (D : nskp r' = false /\ mx = m /\ (ds = true /\ p = PPosted qq \/ ds = false /\ win r' = false /\ p = PSwitched qq)).
    { destruct C' as (C1&C2&C3). split.
      - destruct (nskp r'); [|reflexivity]. destruct (N eq_refl); congruence.
      - split; [exact C2|]. destruct C3 as [C3|(C3&C4&C5)]; [left; exact C3|]. right. split; [exact C3|]. split; [|exact C5].
        destruct (win r'); [|reflexivity]. destruct (W eq_refl); congruence. }
    destruct r'; try exact D. discriminate. }
  assert (NU : (ds = true -> ap = false -> noupd (St a0 a1 up us ds rd ap qq mx r v lg) ->
               noupd (St a0' a1' up' us' ds rd ap qq mx r' v lg'))).
  { intros D A H1 c Hc. cbn in *. destruct P as [P|[P|[P|(c'&P1&P2)]]]; congruence. }
  assert (W0 : win r = false -> ds = false -> win r' = false).
  { intros A B. destruct (win r'); [|reflexivity]. destruct (W eq_refl); congruence. }
  assert (K0 : rlk r = false -> ap = false -> rlk r' = false).
  { intros A B. destruct (rlk r'); [|reflexivity]. destruct (K eq_refl); congruence. }
  assert (N0 : nskp r = false -> ap = true -> nskp r' = false).
  { intros A B. destruct (nskp r'); [|reflexivity]. destruct (N eq_refl); congruence. }
  assert (KW : rlk r' = true -> win r' = true) by (destruct r'; auto; discriminate).
  assert (AF : ds = false -> after (St a0 a1 up us ds rd ap qq mx r v lg) p -> after (St a0' a1' up' us' ds rd ap qq mx r' v lg') p).
  { intros D (A1&A2&A3&A4&A5&A6). unfold after. cbn in *. repeat split; try assumption.
    - destruct (rlk r') eqn:X; [|reflexivity]. specialize (KW eq_refl). destruct (W KW) as [Y|Y]; [|congruence].
      specialize (A6 Y). destruct (K eq_refl); congruence.
    - intros X. destruct (W X) as [Y|Y]; [exact (A6 Y)|congruence]. }
  assert (SL : slowC (St a0 a1 up us ds rd ap qq mx r v lg) -> slowC (St a0' a1' up' us' ds rd ap qq mx r' v lg')).
  { intros (A&B&C&D). unfold slowC. cbn in *. auto. }
  assert (FR : free (St a0 a1 up us ds rd ap qq mx r v lg) p -> free (St a0' a1' up' us' ds rd ap qq mx r' v lg') p).
  { intros (A&B&C&D&E). unfold free, quiet. cbn in *. auto. }
  unfold SInv in *. cbn [sv] in *.
  vcases v; try (apply FR; exact H); try (apply BB; exact H).
  - exact (AF (proj1 H) H).
  - exact (AF (proj1 H) H).
  - destruct H as [H H1]. split; [exact (AF (proj1 H) H)|]. cbn in *. intros X. rewrite (U X). apply H1.
    destruct (W X) as [Y|Y]; [exact Y|]. destruct H as (Z&_). cbn in Z. congruence.
  - destruct H as [H H1]. split; [exact (AF (proj1 H) H)|]. exact (W0 H1 (proj1 H)).
  - destruct H as [H H1]. split; [exact (AF (proj1 H) H)|]. exact (W0 H1 (proj1 H)).
  - destruct H as [H H1]. split; [exact (FR H)|exact H1].
  - destruct H as [H H1]. split; [exact (FR H)|exact H1].
  - destruct H as (H1&H2&H3&H4&H5). split; [exact (SL H1)|]. split; [exact H2|]. split; [exact H3|]. split; [exact H4|].
    intros X. exact (NU H3 (proj1 H1) (H5 X)).
  - destruct H as (H1&H2&H3&H4&H5). split; [exact (SL H1)|]. split; [exact H2|]. split; [exact H3|]. split; [exact H4|].
    exact (NU H3 (proj1 H1) H5).
  - destruct H as (H1&H2&H3&H4&H5). split; [exact (SL H1)|]. split; [exact H2|]. split; [exact H3|]. split; [exact H4|].
    intros X. cbn in H3. exact (NU (eq_trans H3 X) (proj1 H1) (H5 X)).
  - destruct H as [H H1]. split; [exact (AF (proj1 H) H)|]. exact (W0 H1 (proj1 H)).
  - cbn in *. destruct H as (H1&H2&H3&H4). split; [exact H1|]. split; [exact H2|]. split; [exact M'|].
    destruct H4 as [(X&Y&Z)|(X&Y&Z)]; [left|right]; auto.
  - destruct H as (H1&H2&H3&H4&H5). cbn in *. split; [exact H1|]. split; [exact H2|]. unfold quiet. cbn. auto.
  - cbn in *. destruct H as (H1&H2&H3&H4&H5). auto.
  - destruct H as (H1&H2&H3&H4&H5). cbn in *. split; [exact H1|]. split; [exact H2|]. unfold quiet. cbn. auto.
  - cbn in *. destruct H as (H1&H2&H3&H4&H5). auto.
  - destruct H as (H1&H2&H3&H4&H5). cbn in *. split; [exact H1|]. split; [exact H2|]. unfold quiet. cbn. auto.
  - cbn in *. destruct H as (H1&H2&H3&H4&H5). auto.
Qed.
Lemma upd_rule s p c h : SInv s p -> rman (rt s) = false ->
  updating (rt s) = None ->
  (do_switch s = false \/ asap s = true \/ skips (q s) c = false) ->
  switch_ok p (Some c) h -> switch_ok p (updating (rt s)) (EUpd c :: h).
Proof.
  intros H M U D K. cbn [switch_ok]. split; [exact U|]. split; [|exact K].
  intros r t n ->. unfold SInv in H. destruct s as [a0 a1 up us ds rd ap qq mx r0 v lg].
  cbn [rt sv used upd do_switch ready asap q mtx log l0 l1] in *.
  assert (BB : forall m, ~ asapB (St a0 a1 up us ds rd ap qq mx r0 v lg) (PStep r t n) m).
  { intros m (_&_&B). cbn in B. destruct r0; try discriminate M;
      destruct B as (_&_&[(_&B)|(_&_&B)]); discriminate B. }
  vcases v; unfold free, after, quiet in H; cbn in H; try (exfalso; apply (BB _ H));
    try (exfalso; repeat match goal with H : _ /\ _ |- _ => destruct H | H : exists _, _ |- _ => destruct H end; congruence).
  destruct H as ((A1&_)&A2&A3&A4&A5).
  destruct k; cbn in A4; try discriminate A4; injection A4 as E1 E2 E3; subst r t;
    (split; [reflexivity|]); cbn in A1, A3; destruct D as [D|[D|D]]; try congruence; apply skips_concerns; assumption.
Qed.
Definition L3 (s : st) := forall b i, rt s = RLd b i -> i = upd s \/ used s = Some i.
Lemma L_rt s pubs x : LInv s pubs -> In x (ses (rt s)) -> lst s (fst x) = snd x.
Proof. intros (A&B&C&D&_) H. exact (proj2 (D x H)). Qed.
Lemma look_l s pubs x : seen_l s pubs -> LInv s pubs -> In x (ses (rt s)) -> seen_l (look s x) pubs.
Proof.
  intros H L I. eapply seen_l_ev; [exact H|reflexivity|]. intros h Hh. cbn. split; [|exact Hh]. exact (L_rt _ _ _ L I).
Qed.
Lemma look_s s p u x : seen_s s p u -> seen_s (look s x) p u.
Proof. intros H. eapply seen_s_ev; [exact H|reflexivity|]. intros h Hh. exact Hh. Qed.
Lemma look_L s pubs x : LInv s pubs -> LInv (look s x) pubs.
Proof. intros H. exact H. Qed.
Lemma look_S s p x : SInv s p -> SInv (look s x) p.
Proof. intros H. exact H. Qed.

Ltac triv := cbn; try reflexivity; try congruence; try discriminate; try (intros; congruence); auto.
Lemma rt_to s r pubs p : seen_l s pubs -> seen_s s p (updating (rt s)) -> LInv s pubs -> SInv s p ->
  rman (rt s) = false -> rman r = false -> (forall b i, r = RLd b i -> i = upd s) ->
  (forall x, In x (ses r) -> In x (ses (rt s))) ->
  (r <> RIdle -> (forall b i, r <> RLd b i) -> rt s <> RIdle /\ forall b i, rt s <> RLd b i) ->
  updating (rt s) = None -> updating r = None ->
  (win r = true -> win (rt s) = true \/ do_switch s = true) ->
  (rlk r = true -> asap s = true \/ rlk (rt s) = true) ->
  (nskp r = true -> asap s = false \/ nskp (rt s) = true) ->
  Inv (set_rt s r).
Proof.
  intros HL HS L S M M' HLd HSes HN U U' W K N. exists pubs, p. split; [|split; [|split]].
  - eapply seen_l_id; [exact HL|reflexivity].
  - cbn. rewrite U'. rewrite U in HS. eapply seen_s_id; [exact HS|reflexivity].
  - eapply L_same; [exact L|..]; triv. intros k E. cbn in E. subst r. discriminate M'.
  - eapply S_move; [exact S|..]; triv.
Qed.
Lemma rt_upd s x j c pubs p : seen_l s pubs -> seen_s s p (updating (rt s)) -> LInv s pubs -> SInv s p ->
  rman (rt s) = false -> In x (ses (rt s)) -> updating (rt s) = None ->
  (do_switch s = false \/ asap s = true \/ skips (q s) c = false) ->
  Inv (set_rt (emit s (EUpd c)) (RUpd x j c)).
Proof.
  intros HL HS L S M I U D. exists pubs, p. split; [|split; [|split]].
  - eapply seen_l_ev; [exact HL|reflexivity|]. intros h Hh. exact Hh.
  - eapply seen_s_ev; [exact HS|reflexivity|]. intros h Hh. apply upd_rule; assumption.
  - eapply L_same; [exact L|..]; triv. intros y [<-|[]]. exact I.
    intros _ _. split; [intros E; rewrite E in I; destruct I|intros b i E; rewrite E in I; destruct I].
  - eapply S_move; [exact S|..]; triv. right. destruct D as [D|[D|D]]; [left; exact D|right; left; exact D|].
    right; right. exists c. split; [reflexivity|exact D].
Qed.
(** handing over is only possible while the service waits for it *)
Lemma man_B s p kk : SInv s p -> rt s = RMan kk -> asapB s p None /\ (sv s = SLock \/ sv s = SWaiting \/ exists to, sv s = SRelock to).
Proof.
  intros H E. destruct s as [a0 a1 up us ds rd ap qq mx r0 v lg]. cbn in E. subst r0.
  unfold SInv in H. cbn [sv] in H.
  vcases v; unfold free, after, quiet, slowC in H; cbn in H;
    try (exfalso; repeat match goal with H : _ /\ _ |- _ => destruct H | H : exists _, _ |- _ => destruct H end; congruence).
  - split; [exact H|]. left. reflexivity.
  - exfalso. destruct H as (_&_&H&_). discriminate H.
  - split; [exact H|]. right; left. reflexivity.
  - split; [exact H|]. right; right. exists to. reflexivity.
Qed.
Lemma B_S s p : asapB s p None -> sv s = SLock \/ sv s = SWaiting \/ (exists to, sv s = SRelock to) -> SInv s p.
Proof. intros H [E|[E|[to E]]]; unfold SInv; rewrite E; exact H. Qed.
Lemma man_rt s b kk : Inv s -> rt s = RMan kk -> Inv (rstep b s).
Proof.
  intros (pubs&p&HL&HS&L&S) E. destruct (man_B s p kk S E) as [B V].
  destruct B as (B1&B2&B3). rewrite E in B3. destruct B3 as (_&B4&B5&->).
  assert (L5 : used s = Some (upd s) /\ forall i, midx kk = Some i -> i = upd s) by exact (proj1 (proj2 (proj2 (proj2 (proj2 L)))) kk E).
  destruct L5 as [L5 L6].
  assert (LK : forall x, In x (mses kk) -> lst s (fst x) = snd x).
  { intros x I. apply (L_rt s pubs x L). rewrite E. exact I. }
  unfold rstep. rewrite E. rewrite E in HS. cbn [updating] in HS.
  (* a step that keeps the flags and stays inside *)
  assert (KEEP : forall s' k', l0 s' = l0 s -> l1 s' = l1 s -> upd s' = upd s -> used s' = used s -> sv s' = sv s ->
     do_switch s' = do_switch s -> asap s' = asap s -> q s' = q s -> mtx s' = mtx s ->
     rt s' = RMan k' -> mend k' = true -> mend kk = true ->
     (forall x, In x (mses k') -> In x (mses kk) \/ x = (upd s, lst s (upd s))) ->
     (forall i, midx k' = Some i -> i = upd s) ->
     seen_l s' pubs -> seen_s s' (mph TRt k' (q s)) None -> Inv s').
  { intros s' k' E0 E1 EU Eu Ev Ed Ea Eq Em Er Me Mk HX HI SL SS. exists pubs, (mph TRt k' (q s)).
    split; [exact SL|]. split; [rewrite Er; exact SS|]. split.
    - eapply (L_take s s' pubs (upd s)); [exact L|left; reflexivity|..]; try assumption.
      + congruence.
      + intros b0 j Z. congruence.
      + intros x I. rewrite Er in I. cbn in I. destruct (HX x I) as [X|X]; [right; rewrite E; split; [exact X|exact L5]|left; exact X].
      + intros k Z. rewrite Er in Z. injection Z as <-. split; [reflexivity|exact HI].
    - apply B_S; [|rewrite Ev; exact V]. unfold asapB. rewrite Er, Ea, Eq, Em, Ed. split; [exact B1|]. split; [exact B2|].
      split; [reflexivity|]. split; [exact B4|]. split; [rewrite B5, Mk, Me; reflexivity|reflexivity]. }
  assert (LOOK : forall x c, In x (mses kk) -> seen_l (if c : bool then look s x else s) pubs /\
                             seen_s (if c then look s x else s) (mph TRt kk (q s)) None).
  { intros x [] I; [|split; assumption]. split.
    - eapply seen_l_ev; [exact HL|reflexivity|]. intros h Hh. split; [exact (LK x I)|exact Hh].
    - apply look_s. exact HS. }
  assert (TK : forall i, i = upd s -> seen_l (emit (set_used s (Some i)) (EBegin (lst s i))) pubs).
  { intros i ->. eapply seen_l_ev; [exact HL|reflexivity|]. intros h Hh. split; [|exact Hh].
    apply (begin_ok s pubs (upd s) L). left. reflexivity. }
  destruct kk as [| |i|x|x|x i|x y|x|x i|x y|x| |]; cbn [mstep take].
  - eapply KEEP; try reflexivity; cbn.
    + destruct b; reflexivity.
    + destruct b; intros z [].
    + destruct b; discriminate.
    + eapply seen_l_ev; [exact HL|reflexivity|]. intros h Hh. exact Hh.
    + eapply seen_s_ev; [exact HS|reflexivity|]. intros h Hh. cbn. exists (q s). split; [reflexivity|].
      split; [unfold executor; rewrite B2; reflexivity|]. split; [reflexivity|]. split; [reflexivity|].
      split; [discriminate|]. destruct b; exact Hh.
  - eapply KEEP; try reflexivity; cbn; try congruence; try assumption. intros z [].
  - specialize (L6 i eq_refl). eapply KEEP; try reflexivity; cbn; try congruence.
    + intros z [<-|[]]. right. subst i. reflexivity.
    + exact (TK i L6).
    + eapply seen_s_ev; [exact HS|reflexivity|]. intros h Hh. exact Hh.
  - destruct (LOOK x (nonempty (r_deact (q s))) (or_introl eq_refl)) as [K1 K2].
    assert (EQ : q (if nonempty (r_deact (q s)) then look s x else s) = q s) by (destruct (nonempty _); reflexivity).
    eapply KEEP; try reflexivity; try (destruct (nonempty (r_deact (q s))); reflexivity); cbn; try congruence.
    + intros z H. left. exact H.
    + eapply seen_l_ev; [exact K1|reflexivity|]. intros h Hh. exact Hh.
    + eapply seen_s_ev; [exact K2|reflexivity|]. intros h Hh. cbn. exists (q s). rewrite EQ. repeat split. exact Hh.
  - eapply KEEP; try reflexivity; cbn; try congruence; try assumption. intros z H. left. exact H.
  - specialize (L6 i eq_refl). eapply KEEP; try reflexivity; cbn; try congruence.
    + intros z [<-|[<-|[]]]; [left; left; reflexivity|]. right. subst i. reflexivity.
    + exact (TK i L6).
    + eapply seen_s_ev; [exact HS|reflexivity|]. intros h Hh. exact Hh.
  - destruct (LOOK y (nonempty (r_to (q s))) (or_intror (or_introl eq_refl))) as [K1 K2].
    assert (EQ : q (if nonempty (r_to (q s)) then look s y else s) = q s) by (destruct (nonempty _); reflexivity).
    eapply KEEP; try reflexivity; try (destruct (nonempty (r_to (q s))); reflexivity); cbn; try congruence.
    + intros z [H|[]]. left. left. exact H.
    + eapply seen_l_ev; [exact K1|reflexivity|]. intros h Hh. exact Hh.
    + eapply seen_s_ev; [exact K2|reflexivity|]. intros h Hh. cbn. exists (q s). rewrite EQ. repeat split. exact Hh.
  - eapply KEEP; try reflexivity; cbn; try congruence; try assumption. intros z H. left. exact H.
  - specialize (L6 i eq_refl). eapply KEEP; try reflexivity; cbn; try congruence.
    + intros z [<-|[<-|[]]]; [left; left; reflexivity|]. right. subst i. reflexivity.
    + exact (TK i L6).
    + eapply seen_s_ev; [exact HS|reflexivity|]. intros h Hh. exact Hh.
  - destruct (LOOK y (nonempty (r_from (q s))) (or_intror (or_introl eq_refl))) as [K1 K2].
    assert (EQ : q (if nonempty (r_from (q s)) then look s y else s) = q s) by (destruct (nonempty _); reflexivity).
    eapply KEEP; try reflexivity; try (destruct (nonempty (r_from (q s))); reflexivity); cbn; try congruence.
    + intros z [H|[]]. left. left. exact H.
    + eapply seen_l_ev; [exact K1|reflexivity|]. intros h Hh. exact Hh.
    + eapply seen_s_ev; [exact K2|reflexivity|]. intros h Hh. cbn. exists (q s). rewrite EQ. repeat split. exact Hh.
  - destruct (LOOK x (nonempty (r_act (q s))) (or_introl eq_refl)) as [K1 K2].
    assert (EQ : q (if nonempty (r_act (q s)) then look s x else s) = q s) by (destruct (nonempty _); reflexivity).
    eapply KEEP; try reflexivity; try (destruct (nonempty (r_act (q s))); reflexivity); cbn; try congruence.
    + intros z [].
    + eapply seen_l_ev; [exact K1|reflexivity|]. intros h Hh. exact Hh.
    + eapply seen_s_ev; [exact K2|reflexivity|]. intros h Hh. cbn. exists (q s). rewrite EQ. repeat split. exact Hh.
  - exists pubs, (PSwitched (q s)). split; [|split; [|split]].
    + eapply seen_l_ev; [exact HL|reflexivity|]. intros h Hh. exact Hh.
    + eapply seen_s_ev; [exact HS|reflexivity|]. intros h Hh. cbn. exists (q s). split; [reflexivity|exact Hh].
    + eapply L_take with (i := upd s); [exact L|left; reflexivity|..]; cbn; try reflexivity; try congruence; try discriminate.
      * intros x [].
      * intros k [= <-]. split; [reflexivity|discriminate].
    + apply B_S; [|exact V]. unfold asapB. cbn. split; [exact B1|]. split; [exact B2|]. repeat split. exact B4.
  - exists pubs, (PSwitched (q s)). split; [|split; [|split]].
    + eapply seen_l_id; [exact HL|reflexivity].
    + eapply seen_s_id; [exact HS|reflexivity].
    + eapply L_same; [exact L|..]; triv. intros x [].
    + apply B_S; [|exact V]. unfold asapB. cbn. split; [exact B1|]. split; [exact B2|]. repeat split.
      right. split; [exact B5|]. split; reflexivity.
Qed.
Lemma rt_inv s b : Inv s -> Inv (rstep b s).
Proof.
  intros I. destruct (rt s) as [|u i|x|x j|x j c|x j c|x j c|x|x|x|k] eqn:E.
  11: exact (man_rt s b k I E).
  all: destruct I as (pubs&p&HL&HS&L&S); pose proof (fun x => L_rt s pubs x L) as LR; unfold rstep; rewrite E in *.
  - apply (rt_to s _ pubs p); rewrite ?E; triv; try (intros b0 i [= <- <-]; reflexivity); intros N1 N2; exfalso; exact (N2 _ _ eq_refl).
  - cbn [take]. assert (Hi : i = upd s \/ used s = Some i) by exact (proj1 (proj2 (proj2 L)) u i E).
    exists pubs, p. split; [|split; [|split]].
    + eapply seen_l_ev; [exact HL|reflexivity|]. intros h Hh. split; [|exact Hh]. apply (begin_ok s pubs i L Hi).
    + eapply seen_s_ev; [exact HS|reflexivity|]. intros h Hh. destruct u; exact Hh.
    + eapply L_take with (i := i); [exact L|exact Hi|..]; cbn; try reflexivity.
      * destruct u; discriminate.
      * intros x H. left. destruct u; destruct H as [<-|[]]; reflexivity.
      * destruct u; discriminate.
    + eapply S_move; [exact S|..]; rewrite ?E; cbn; try reflexivity; destruct u; cbn; try discriminate; try reflexivity; left; reflexivity.
  - destruct b.
    + exists pubs, p. split; [apply look_l; [exact HL|exact L|rewrite E; left; reflexivity]|].
      split; [apply look_s; cbn; rewrite E; exact HS|]. split; [exact L|exact S].
    + apply (rt_to s _ pubs p); rewrite ?E; triv; intros; contradiction.
  - assert (L1 : seen_l (look s x) pubs) by (apply look_l; [exact HL|exact L|rewrite E; left; reflexivity]).
    assert (S1 : seen_s (look s x) p (updating (rt (look s x)))) by (apply look_s; cbn; rewrite E; exact HS).
    assert (E' : rt (look s x) = RLp x j) by exact E.
    cbn zeta. change (lst (look s x)) with (lst s). change (do_switch (look s x)) with (do_switch s).
    destruct (nth_error (lst s (fst x)) j) as [c|]; destruct (do_switch s) eqn:D.
    + eapply rt_to; [exact L1|exact S1|exact L|exact S|..]; rewrite ?E'; cbn; rewrite ?E; triv; try (intros _ _; split; discriminate).
    + eapply rt_upd; [exact L1|exact S1|exact L|exact S|..]; rewrite ?E'; triv.
    + eapply rt_to; [exact L1|exact S1|exact L|exact S|..]; rewrite ?E'; cbn; rewrite ?E; triv; try (intros _ _; split; discriminate).
    + eapply rt_to; [exact L1|exact S1|exact L|exact S|..]; rewrite ?E'; cbn; rewrite ?E; triv; intros; contradiction.
  - destruct (asap s) eqn:D.
    + eapply rt_upd; [exact HL|rewrite E; exact HS|exact L|exact S|..]; rewrite ?E; triv.
    + apply (rt_to _ _ pubs p); rewrite ?E; triv; try (intros _ _; split; discriminate).
  - destruct (skips (q s) c) eqn:D.
    + apply (rt_to _ _ pubs p); rewrite ?E; triv; try (intros _ _; split; discriminate).
    + eapply rt_upd; [exact HL|rewrite E; exact HS|exact L|exact S|..]; rewrite ?E; triv.
  - exists pubs, p. split; [|split; [|split]].
    + eapply seen_l_ev; [exact HL|reflexivity|]. intros h Hh. exact Hh.
    + eapply seen_s_ev; [exact HS|reflexivity|]. intros h Hh. cbn. split; [reflexivity|exact Hh].
    + eapply L_same; [exact L|..]; rewrite ?E; triv; try (intros _ _; split; discriminate).
    + eapply S_move; [exact S|..]; rewrite ?E; triv.
  - destruct (asap s) eqn:D; apply (rt_to _ _ pubs p); rewrite ?E; triv; try (intros _ _; split; discriminate).
  - exists pubs, p. split; [|split; [|split]].
    + eapply seen_l_id; [exact HL|reflexivity].
    + eapply seen_s_id; [exact HS|reflexivity].
    + eapply L_same; [exact L|..]; rewrite ?E; triv; intros; contradiction.
    + assert (S' : SInv (set_rt s RIdle) p) by (eapply S_move; [exact S|..]; rewrite ?E; triv).
      clear - S S' E. destruct s as [a0 a1 up us ds rd ap qq mx r v lg]. cbn in E. subst r.
      unfold SInv in *. cbn [sv] in *.
      vcases v; try exact S'; cbn in *.
      * destruct S as [(_&_&(W&_)) _]. discriminate W.
      * destruct S' as (A&B&C&D&F). split; [exact A|]. split; [exact B|]. split; [exact C|]. split; [exact D|].
        intros _ c Hc. discriminate Hc.
  - destruct (mtx s) eqn:D.
    + apply (rt_to _ _ pubs p); rewrite ?E; triv; intros; contradiction.
    + assert (B : asapB s p None /\ (sv s = SLock \/ sv s = SWaiting \/ exists to, sv s = SRelock to) /\ do_switch s = true).
      { clear - S E D. destruct s as [a0 a1 up us ds rd ap qq mx r v lg]. cbn in E, D. subst r mx.
        unfold SInv in S. cbn [sv] in S.
        vcases v; unfold free, after, quiet, slowC in S; cbn in S;
          try (exfalso; repeat match goal with H : _ /\ _ |- _ => destruct H | H : _ \/ _ |- _ => destruct H | H : exists _, _ |- _ => destruct H end; congruence).
        2: { exfalso. destruct S as (_&_&(_&S&_)). discriminate S. }
        all: cbn; split; [exact S|]; split; [eauto|].
        all: destruct S as (_&_&(_&_&[(S&_)|(_&S&_)])); cbn in S; [exact S|discriminate S]. }
      destruct B as (B&V&DS). destruct B as (B1&B2&B3). rewrite E in B3. destruct B3 as (_&_&B3).
      assert (P : p = PPosted (q s)) by (destruct B3 as [(_&B3)|(B3&_)]; congruence). subst p.
      exists pubs, (PPosted (q s)). split; [|split; [|split]].
      * eapply seen_l_id; [exact HL|reflexivity].
      * eapply seen_s_id; [exact HS|reflexivity].
      * eapply L_same; [exact L|..]; rewrite ?E; triv; try (intros _ _; split; discriminate).
        intros k [= <-]. split; [|discriminate].
        destruct L as (_&L2&_&L4&_). destruct (L4 x) as [U _]; [rewrite E; left; reflexivity|].
        destruct (L2 _ U) as [X|[k X]]; [rewrite U, X; reflexivity|]. destruct V as [V|[V|[to V]]]; congruence.
      * apply B_S; [|exact V]. unfold asapB. cbn. repeat split; assumption.
Qed.
(** *** the service side *)
Lemma L_sv s s' pubs : LInv s pubs ->
  l0 s' = l0 s -> l1 s' = l1 s -> upd s' = upd s -> used s' = used s -> rt s' = rt s ->
  (forall k f, sv s <> SWait k f \/ used s <> Some f) -> (forall k f, sv s' <> SWait k f) ->
  (forall k, sv s' = SMan k -> (forall i, midx k = Some i -> i = upd s) /\
     forall x, In x (mses k) -> fst x = upd s /\ snd x = lst s (upd s)) ->
  (forall k, sv s' = SMod k \/ sv s' = SClearL k -> used s <> Some (negb (upd s))) ->
  LInv s' pubs.
Proof.
  intros (A&B&C&D&E&F&G&M) E0 E1 EU Eu Er HW HW' HM HN. unfold LInv.
  assert (EL : forall i, lst s' i = lst s i) by (intros []; cbn; assumption).
  rewrite EU, Eu, Er. split; [|split; [|split; [|split; [|split; [|split; [|split]]]]]].
  - destruct A as (p&A1&A2). exists p. rewrite EL. split; [exact A1|]. intros k f H. exfalso. exact (HW' k f H).
  - intros u H. left. destruct (B u H) as [X|[k X]]; [exact X|]. destruct (HW k u) as [Y|Y]; congruence.
  - exact C.
  - intros x H. rewrite EL. exact (D x H).
  - exact E.
  - intros k H. rewrite EL. exact (HM k H).
  - exact G.
  - exact HN.
Qed.
Lemma not_rman_mod s p : SInv s p -> (exists k, sv s = SMod k) \/ (exists k, sv s = SClearL k) -> rman (rt s) = false.
Proof.
  intros H V. unfold SInv in H. destruct V as [[k V]|[k V]]; rewrite V in H; destruct k; unfold free, quiet, after in H;
    repeat match goal with H : _ /\ _ |- _ => destruct H end; assumption.
Qed.
(** writing the list that is not current *)
Lemma L_write s pubs v v' : LInv s pubs -> (sv s = SMod v' \/ sv s = SClearL v') -> 
  LInv (set_lst s (negb (upd s)) v) pubs.
Proof.
  intros (A&B&C&D&E&F&G&M) V. pose proof (M v' V) as NU. unfold LInv.
  assert (EL : forall i, i = upd s -> lst (set_lst s (negb (upd s)) v) i = lst s i).
  { intros i ->. unfold lst, set_lst. cbn. destruct (upd s); reflexivity. }
  cbn [upd used rt sv set_lst]. split; [|split; [|split; [|split; [|split; [|split; [|split]]]]]].
  - destruct A as (p&A1&A2). exists p. rewrite EL by reflexivity. split; [exact A1|].
    intros k f H. destruct V as [V|V]; congruence.
  - exact B.
  - exact C.
  - intros x H. destruct (D x H) as [D1 D2]. split; [exact D1|]. rewrite EL; [exact D2|].
    destruct (B _ D1) as [X|[k X]]; [exact X|]. destruct V; congruence.
  - exact E.
  - intros k H. destruct V; congruence.
  - exact G.
  - exact M.
Qed.
Lemma busy_false s i : busy s i = false -> used s <> Some i.
Proof. unfold busy. intros H E. rewrite E in H. destruct i; discriminate. Qed.
(** publishing *)
Lemma L_flip s s' pubs k : LInv s pubs -> sv s = SMod k -> rman (rt s) = false ->
  (forall b i, rt s = RLd b i -> used s <> None) ->
  l0 s' = l0 s -> l1 s' = l1 s -> upd s' = negb (upd s) -> used s' = used s -> rt s' = rt s -> sv s' = SWait k (upd s) ->
  LInv s' (lst s (negb (upd s)) :: pubs).
Proof.
  intros (A&B&C&D&E&F&G&M) V R FA E0 E1 EU Eu Er Ev. unfold LInv.
  assert (EL : forall i, lst s' i = lst s i) by (intros []; cbn; assumption).
  assert (B' : forall u, used s = Some u -> u = upd s).
  { intros u H. destruct (B u H) as [X|[k' X]]; congruence. }
  rewrite EU, Eu, Er, Ev. split; [|split; [|split; [|split; [|split; [|split; [|split]]]]]].
  - exists pubs. rewrite EL. split; [reflexivity|]. intros k' f [= <- <-]. split; [destruct (upd s); reflexivity|].
    destruct A as (p&A1&_). exists p. rewrite EL. exact A1.
  - intros u H. right. exists k. rewrite (B' u H). reflexivity.
  - intros b i H. right. destruct (C b i H) as [X|X]; [|exact X]. 
    destruct (used s) as [u|] eqn:U; [|exfalso; exact (FA b i H eq_refl)]. rewrite (B' u eq_refl), X. reflexivity.
  - intros x H. rewrite EL. exact (D x H).
  - intros k' H. rewrite H in R. discriminate R.
  - discriminate.
  - exact G.
  - intros k' [H|H]; discriminate.
Qed.
(** a step of manage_switch on the service side that obtains a list *)
Lemma L_svtake s s' pubs : LInv s pubs -> (exists k, sv s = SMan k) -> rman (rt s) = false ->
  l0 s' = l0 s -> l1 s' = l1 s -> upd s' = upd s -> used s' = Some (upd s) -> rt s' = rt s ->
  (exists k, sv s' = SMan k /\ (forall i, midx k = Some i -> i = upd s) /\
     forall x, In x (mses k) -> fst x = upd s /\ snd x = lst s (upd s)) ->
  LInv s' pubs.
Proof.
  intros (A&B&C&D&E&F&G&M) [k0 V] R E0 E1 EU Eu Er (k1&V'&X1&X2). unfold LInv.
  assert (EL : forall i, lst s' i = lst s i) by (intros []; cbn; assumption).
  assert (B' : forall u, used s = Some u -> u = upd s).
  { intros u H. destruct (B u H) as [X|[k' X]]; congruence. }
  rewrite EU, Eu, Er, V'. split; [|split; [|split; [|split; [|split; [|split; [|split]]]]]].
  - destruct A as (p&A1&A2). exists p. rewrite EL. split; [exact A1|]. discriminate.
  - intros u [= <-]. left. reflexivity.
  - intros b i H. left. destruct (C b i H) as [X|X]; [exact X|]. exact (B' i X).
  - intros x H. destruct (D x H) as [D1 D2]. rewrite EL. split; [rewrite (B' _ D1); reflexivity|exact D2].
  - intros k H. rewrite H in R. discriminate R.
  - intros k [= <-]. rewrite EL. split; assumption.
  - discriminate.
  - intros k [H|H]; discriminate.
Qed.
Lemma sv_goto s v pubs p : Inv s -> seen_l s pubs -> seen_s s p (updating (rt s)) -> LInv s pubs ->
  (forall k f, sv s <> SWait k f \/ used s <> Some f) -> (forall k f, v <> SWait k f) ->
  (forall k, v = SMan k -> mses k = [] /\ midx k = None) ->
  (forall k, v = SMod k \/ v = SClearL k -> used s <> Some (negb (upd s))) ->
  forall s', l0 s' = l0 s -> l1 s' = l1 s -> upd s' = upd s -> used s' = used s -> rt s' = rt s -> log s' = log s ->
  sv s' = v -> SInv s' p -> Inv s'.
Proof.
  intros _ HL HS L HW HW' HM HN s' E0 E1 EU Eu Er El Ev S. exists pubs, p. split; [|split; [|split]].
  - eapply seen_l_id; eassumption.
  - rewrite Er. eapply seen_s_id; eassumption.
  - eapply L_sv; try eassumption.
    + rewrite Ev. exact HW'.
    + rewrite Ev. intros k H. destruct (HM k H) as [X Y]. rewrite X, Y. split; [discriminate|intros x []].
    + rewrite Ev. exact HN.
  - exact S.
Qed.
Lemma man_sv s b kk s' : Inv s -> sv s = SMan kk ->
  s' = (let '(s, k) := mstep TSv kk b s in match k with Some k => set_sv s (SMan k) | None => set_sv s (SGet true) end) ->
  Inv s'.
Proof.
  intros (pubs&p&HL&HS&L&S) E ->. unfold SInv in S. rewrite E in S. destruct S as (SL&S2&S3&->&S5).
  assert (RM : rman (rt s) = false) by (destruct SL as (_&_&X&_); exact X).
  assert (L6 : (forall i, midx kk = Some i -> i = upd s) /\ forall x, In x (mses kk) -> fst x = upd s /\ snd x = lst s (upd s))
    by exact (proj1 (proj2 (proj2 (proj2 (proj2 (proj2 L))))) kk E).
  destruct L6 as [L6 L7].
  assert (LK : forall x, In x (mses kk) -> lst s (fst x) = snd x).
  { intros x I. destruct (L7 x I) as [-> X]. symmetry. exact X. }
  assert (KEEP : forall s' k', l0 s' = l0 s -> l1 s' = l1 s -> upd s' = upd s -> (used s' = used s \/ used s' = Some (upd s)) -> rt s' = rt s ->
     do_switch s' = do_switch s -> asap s' = asap s -> q s' = q s -> mtx s' = mtx s ->
     sv s' = SMan k' -> mend k' = true -> mend kk = true ->
     (forall x, In x (mses k') -> In x (mses kk) \/ x = (upd s, lst s (upd s))) ->
     (forall i, midx k' = Some i -> i = upd s) ->
     seen_l s' pubs -> seen_s s' (mph TSv k' (q s)) (updating (rt s)) -> Inv s').
  { intros s' k' E0 E1 EU Eu Er Ed Ea Eq Em Ev Me Mk HX HI WL WS. exists pubs, (mph TSv k' (q s)).
    assert (X2 : forall x, In x (mses k') -> fst x = upd s /\ snd x = lst s (upd s)).
    { intros x I. destruct (HX x I) as [X|X]; [exact (L7 x X)|subst x; split; reflexivity]. }
    split; [exact WL|]. split; [rewrite Er; exact WS|]. split.
    - destruct Eu as [Eu|Eu].
      + eapply (L_sv s s' pubs); try eassumption; try (rewrite Ev).
        * intros k f. left. rewrite E. discriminate.
        * discriminate.
        * intros k [= <-]. split; assumption.
        * intros k [H|H]; discriminate.
      + eapply (L_svtake s s' pubs); try eassumption; [exists kk; exact E|]. exists k'. split; [exact Ev|]. split; assumption.
    - unfold SInv. rewrite Ev. unfold slowC, noupd in *. rewrite Er, Ea, Eq, Em, Ed. split; [exact SL|].
      split; [exact S2|]. split; [rewrite S3, Mk, Me; reflexivity|]. split; [reflexivity|]. intros _. exact (S5 Mk). }
  assert (LOOK : forall x c, In x (mses kk) -> seen_l (if c : bool then look s x else s) pubs /\
                             seen_s (if c then look s x else s) (mph TSv kk (q s)) (updating (rt s))).
  { intros x [] I; [|split; assumption]. split.
    - eapply seen_l_ev; [exact HL|reflexivity|]. intros h Hh. split; [exact (LK x I)|exact Hh].
    - apply look_s. exact HS. }
  assert (TK : forall i, i = upd s -> seen_l (emit (set_used s (Some i)) (EBegin (lst s i))) pubs).
  { intros i ->. eapply seen_l_ev; [exact HL|reflexivity|]. intros h Hh. split; [|exact Hh].
    apply (begin_ok s pubs (upd s) L). left. reflexivity. }
  destruct kk as [| |i|x|x|x i|x y|x|x i|x y|x| |]; cbn [mstep take].
  - eapply KEEP; try reflexivity; cbn.
    + left. reflexivity.
    + destruct b; reflexivity.
    + destruct b; intros z [].
    + destruct b; discriminate.
    + eapply seen_l_ev; [exact HL|reflexivity|]. intros h Hh. exact Hh.
    + eapply seen_s_ev; [exact HS|reflexivity|]. intros h Hh. cbn. exists (q s). split; [reflexivity|].
      split; [unfold executor; destruct SL as (_&X&_); rewrite X; reflexivity|]. split; [reflexivity|]. split; [reflexivity|].
      split; [intros c Hc; apply skips_concerns; exact (S5 eq_refl c Hc)|]. destruct b; exact Hh.
  - eapply KEEP; try reflexivity; cbn; try congruence; try assumption; [left; reflexivity|]. intros z [].
  - specialize (L6 i eq_refl). eapply KEEP; try reflexivity; cbn; try congruence.
    + right. rewrite L6. reflexivity.
    + intros z [<-|[]]. right. subst i. reflexivity.
    + exact (TK i L6).
    + eapply seen_s_ev; [exact HS|reflexivity|]. intros h Hh. exact Hh.
  - destruct (LOOK x (nonempty (r_deact (q s))) (or_introl eq_refl)) as [K1 K2].
    assert (EQ : q (if nonempty (r_deact (q s)) then look s x else s) = q s) by (destruct (nonempty _); reflexivity).
    eapply KEEP; try reflexivity; try (destruct (nonempty (r_deact (q s))); reflexivity); cbn; try congruence.
    + left. destruct (nonempty (r_deact (q s))); reflexivity.
    + intros z H. left. exact H.
    + eapply seen_l_ev; [exact K1|reflexivity|]. intros h Hh. exact Hh.
    + eapply seen_s_ev; [exact K2|reflexivity|]. intros h Hh. cbn. exists (q s). rewrite EQ. repeat split. exact Hh.
  - eapply KEEP; try reflexivity; cbn; try congruence; try assumption; [left; reflexivity|]. intros z H. left. exact H.
  - specialize (L6 i eq_refl). eapply KEEP; try reflexivity; cbn; try congruence.
    + right. rewrite L6. reflexivity.
    + intros z [<-|[<-|[]]]; [left; left; reflexivity|]. right. subst i. reflexivity.
    + exact (TK i L6).
    + eapply seen_s_ev; [exact HS|reflexivity|]. intros h Hh. exact Hh.
  - destruct (LOOK y (nonempty (r_to (q s))) (or_intror (or_introl eq_refl))) as [K1 K2].
    assert (EQ : q (if nonempty (r_to (q s)) then look s y else s) = q s) by (destruct (nonempty _); reflexivity).
    eapply KEEP; try reflexivity; try (destruct (nonempty (r_to (q s))); reflexivity); cbn; try congruence.
    + left. destruct (nonempty (r_to (q s))); reflexivity.
    + intros z [H|[]]. left. left. exact H.
    + eapply seen_l_ev; [exact K1|reflexivity|]. intros h Hh. exact Hh.
    + eapply seen_s_ev; [exact K2|reflexivity|]. intros h Hh. cbn. exists (q s). rewrite EQ. repeat split. exact Hh.
  - eapply KEEP; try reflexivity; cbn; try congruence; try assumption; [left; reflexivity|]. intros z H. left. exact H.
  - specialize (L6 i eq_refl). eapply KEEP; try reflexivity; cbn; try congruence.
    + right. rewrite L6. reflexivity.
    + intros z [<-|[<-|[]]]; [left; left; reflexivity|]. right. subst i. reflexivity.
    + exact (TK i L6).
    + eapply seen_s_ev; [exact HS|reflexivity|]. intros h Hh. exact Hh.
  - destruct (LOOK y (nonempty (r_from (q s))) (or_intror (or_introl eq_refl))) as [K1 K2].
    assert (EQ : q (if nonempty (r_from (q s)) then look s y else s) = q s) by (destruct (nonempty _); reflexivity).
    eapply KEEP; try reflexivity; try (destruct (nonempty (r_from (q s))); reflexivity); cbn; try congruence.
    + left. destruct (nonempty (r_from (q s))); reflexivity.
    + intros z [H|[]]. left. left. exact H.
    + eapply seen_l_ev; [exact K1|reflexivity|]. intros h Hh. exact Hh.
    + eapply seen_s_ev; [exact K2|reflexivity|]. intros h Hh. cbn. exists (q s). rewrite EQ. repeat split. exact Hh.
  - destruct (LOOK x (nonempty (r_act (q s))) (or_introl eq_refl)) as [K1 K2].
    assert (EQ : q (if nonempty (r_act (q s)) then look s x else s) = q s) by (destruct (nonempty _); reflexivity).
    eapply KEEP; try reflexivity; try (destruct (nonempty (r_act (q s))); reflexivity); cbn; try congruence.
    + left. destruct (nonempty (r_act (q s))); reflexivity.
    + intros z [].
    + eapply seen_l_ev; [exact K1|reflexivity|]. intros h Hh. exact Hh.
    + eapply seen_s_ev; [exact K2|reflexivity|]. intros h Hh. cbn. exists (q s). rewrite EQ. repeat split. exact Hh.
  - exists pubs, (PSwitched (q s)). split; [|split; [|split]].
    + eapply seen_l_ev; [exact HL|reflexivity|]. intros h Hh. exact Hh.
    + eapply seen_s_ev; [exact HS|reflexivity|]. intros h Hh. cbn. exists (q s). split; [reflexivity|exact Hh].
    + eapply L_sv; [exact L|..]; try reflexivity; cbn; try discriminate.
      * intros k f. left. rewrite E. discriminate.
      * intros k [= <-]. split; [discriminate|intros x []].
      * intros k [H|H]; discriminate.
    + unfold SInv. cbn. split; [exact SL|]. split; [exact S2|]. split; [reflexivity|]. split; [reflexivity|discriminate].
  - eapply (sv_goto s (SGet true) pubs (PSwitched (q s))); try reflexivity; try discriminate.
    + exists pubs, (PSwitched (q s)). split; [exact HL|]. split; [exact HS|]. split; [exact L|]. unfold SInv. rewrite E.
      split; [exact SL|]. split; [exact S2|]. split; [exact S3|]. split; [reflexivity|discriminate].
    + exact HL.
    + exact HS.
    + exact L.
    + intros k f. left. rewrite E. discriminate.
    + intros k [H|H]; discriminate.
    + unfold SInv, after. cbn. destruct SL as (A1&A2&A3&A4). repeat split; try assumption. intros _. exact A1.
Qed.
Lemma sv_inv s x s' : Inv s -> (forall b i, rt s = RLd b i -> used s <> None) ->
  (sv s = SClr1 RTimeout -> x = IGo -> win (rt s) = false) ->
  sstep x s = Some s' -> Inv s'.
Proof.
  intros I FA NO. pose proof I as (pubs&p&HL&HS&L&S). unfold sstep.
  assert (GO : forall v, (forall k f, sv s <> SWait k f \/ used s <> Some f) -> (forall k f, v <> SWait k f) ->
    (forall k, v = SMan k -> mses k = [] /\ midx k = None) ->
    (forall k, v = SMod k \/ v = SClearL k -> used s <> Some (negb (upd s))) ->
    forall s', l0 s' = l0 s -> l1 s' = l1 s -> upd s' = upd s -> used s' = used s -> rt s' = rt s -> log s' = log s ->
    sv s' = v -> SInv s' p -> Inv s') by (intros v; apply (sv_goto s v pubs p I HL HS L)).
  destruct (sv s) as [|k|k|k f|k|k| | | | | |to| |to| | |kk|r|r|r|r] eqn:E; destruct x as [| | | | |w|rr]; try discriminate;
    intros HX; unfold SInv in S; rewrite E in S.
  Ltac gg GO v E := eapply (GO v); try reflexivity; try discriminate; [intros ? ?; left; discriminate|intros ? [?|?]; discriminate|].
  - injection HX as <-. gg GO (SGet false) E. exact S.
  - injection HX as <-. gg GO SFill E. exact S.
  - destruct (busy s (negb (upd s))) eqn:BU; [discriminate|]. injection HX as <-.
    eapply (GO (SMod k)); try reflexivity; try discriminate; [intros ? ?; left; discriminate|intros ? _; exact (busy_false _ _ BU)|].
    exact S.
  - injection HX as <-. exists (lst s (negb (upd s)) :: pubs), p. split; [|split; [|split]].
    + eapply seen_l_ev; [exact HL|reflexivity|]. intros h Hh. exact Hh.
    + eapply seen_s_ev; [exact HS|reflexivity|]. intros h Hh. exact Hh.
    + eapply (L_flip s _ pubs k); try reflexivity; try assumption.
      apply (not_rman_mod s p); [unfold SInv; rewrite E; exact S|left; exists k; exact E].
    + unfold SInv. cbn. destruct k; [|exact S]. split; [exact S|].
      intros W. destruct L as (_&B&_&D&_).
      assert (X : exists x, In x (ses (rt s))) by (destruct (rt s); try discriminate W; eexists; left; reflexivity).
      destruct X as [x X]. destruct (D x X) as [D1 _]. rewrite D1. f_equal. destruct (B _ D1) as [Y|[k' Y]]; [exact Y|congruence].
  - injection HX as <-. exists pubs, p. split; [|split; [|split]].
    + exact HL.
    + exact HS.
    + eapply L_write; [exact L|left; exact E].
    + unfold SInv. cbn. rewrite E. exact S.
  - destruct (busy s f) eqn:BU; [discriminate|]. injection HX as <-.
    eapply (GO (SGet2 k)); try reflexivity; try discriminate.
    + intros k' f'. destruct (Bool.bool_dec f f') as [<-|N]; [right; exact (busy_false _ _ BU)|left; congruence].
    + intros ? [?|?]; discriminate.
    + unfold SInv. cbn. destruct k; [|exact S]. destruct S as [S1 S2]. split; [exact S1|].
      destruct (win (rt s)); [|reflexivity]. exfalso. exact (busy_false _ _ BU (S2 eq_refl)).
  - destruct (busy s (negb (upd s))) eqn:BU; [discriminate|]. injection HX as <-.
    eapply (GO (SClearL k)); try reflexivity; try discriminate; [intros ? ?; left; discriminate|intros ? _; exact (busy_false _ _ BU)|].
    exact S.
  - injection HX as <-.
    assert (I1 : LInv (set_lst s (negb (upd s)) []) pubs) by (eapply L_write; [exact L|right; exact E]).
    exists pubs, p. split; [exact HL|]. split; [exact HS|]. split.
    + eapply L_sv; [exact I1|..]; try reflexivity; cbn; try (destruct k; discriminate).
      * intros ? ?. left. rewrite E. discriminate.
      * intros k' [H|H]; destruct k; discriminate.
    + unfold SInv. cbn. destruct k; exact S.
  - injection HX as <-. gg GO SSetAsap E. exact S.
  - injection HX as <-. gg GO (SClr1 RRejected) E. exact S.
  - injection HX as <-. exists pubs, p. split; [exact HL|]. split; [exact HS|]. split; [exact L|]. unfold SInv. cbn. rewrite E. exact S.
  - injection HX as <-. gg GO SSetReady E. split; [exact S|reflexivity].
  - injection HX as <-. gg GO SSetDo E. destruct S as [S1 S2]. split; [exact S1|]. split; [exact S2|reflexivity].
  - injection HX as <-. destruct S as ((S1&->&S2&S3&S4)&S5&S6). exists pubs, (PPosted (q s)). split; [|split; [|split]].
    + eapply seen_l_ev; [exact HL|reflexivity|]. intros h Hh. exact Hh.
    + eapply seen_s_ev; [exact HS|reflexivity|]. intros h Hh. cbn. split; [reflexivity|exact Hh].
    + eapply L_sv; [exact L|..]; try reflexivity; cbn; try (destruct (r_asap (q s)); discriminate).
      * intros ? ?. left. rewrite E. discriminate.
      * intros k' [H|H]; destruct (r_asap (q s)); discriminate.
    + unfold SInv. cbn. destruct (r_asap (q s)) eqn:RA.
      * unfold asapB. cbn. split; [exact S5|]. split; [exact RA|].
        destruct (rt s); try discriminate S2; try discriminate S3; (split; [reflexivity|]; split; [exact S4|left; split; reflexivity]).
      * unfold slowC. cbn. repeat split; try assumption.
        -- destruct (rt s); try reflexivity; discriminate S2.
        -- intros X. congruence.
  - destruct (mtx s) eqn:MX; [discriminate|]. injection HX as <-. gg GO (SCheck false) E.
    destruct S as (S1&S2&S3). split; [exact S1|]. split; [exact S2|]. cbn.
    destruct (rt s); try (destruct S3 as (A1&A2&A3); split; [exact A1|]; split; [reflexivity|exact A3]).
    destruct S3 as (_&A&_). congruence.
  - destruct S as (S1&S2&S3). destruct (do_switch s) eqn:DS.
    + destruct to; injection HX as <-.
      * gg GO (SClr1 RTimeout) E. unfold SInv. cbn. rewrite DS.
        assert (X : nskp (rt s) = false /\ rman (rt s) = false /\ mtx s = Some TSv /\ p = PPosted (q s)).
        { destruct (rt s); try (destruct S3 as (A1&A2&[(_&A3)|(A3&_)]); [cbn; auto|discriminate A3]).
          destruct S3 as (A&_). discriminate A. }
        destruct X as (X1&X2&X3&X4). split; [exact X4|]. split; [reflexivity|]. split; [exact X2|]. left. auto.
      * gg GO SWaiting E. unfold SInv, asapB. cbn. split; [exact S1|]. split; [exact S2|].
        destruct (rt s); try (destruct S3 as (A1&A2&A3); split; [exact A1|]; split; [reflexivity|rewrite DS; exact A3]).
        destruct S3 as (A&_). discriminate A.
    + injection HX as <-. gg GO (SGet true) E. unfold SInv, after. cbn. rewrite DS.
      assert (X : win (rt s) = false /\ rman (rt s) = false /\ p = PSwitched (q s)).
      { destruct (rt s); try (destruct S3 as (A1&A2&[(A3&_)|(_&A3&A4)]); [discriminate A3|cbn; auto]).
          destruct S3 as (A&_). discriminate A. }
      destruct X as (X1&X2&X3). repeat split; try assumption. destruct (rt s); try reflexivity; discriminate X1.
      intros X. congruence.
  - injection HX as <-. gg GO (SRelock false) E. exact S.
  - injection HX as <-. gg GO (SRelock true) E. exact S.
  - destruct (mtx s) eqn:MX; [discriminate|]. injection HX as <-. gg GO (SCheck to) E.
    destruct S as (S1&S2&S3). split; [exact S1|]. split; [exact S2|]. cbn.
    destruct (rt s); try (destruct S3 as (A1&A2&A3); split; [exact A1|]; split; [reflexivity|exact A3]).
    destruct S3 as (_&A&_). congruence.
  - destruct S as (S1&S2&S3&S4&S5). destruct (ready s) eqn:RD; injection HX as <-; [|exact I].
    gg GO STry E. unfold SInv. cbn. split; [exact S1|]. split; [exact S2|]. split; [exact S3|]. split; [exact S4|exact (S5 eq_refl)].
  - injection HX as <-. destruct S as ((A1&A2&A3&A4)&S2&S3&S4&S5). gg GO (SClr1 RTimeout) E. unfold SInv. cbn.
    split; [exact S4|]. split; [exact S3|]. split; [exact A3|]. right. auto.
  - destruct S as (S1&S2&S3&S4&S5). rewrite S2 in HX. injection HX as <-.
    eapply (GO (SMan MPerf)); try reflexivity; try discriminate.
    + intros ? ?. left. discriminate.
    + intros k [= <-]. split; reflexivity.
    + intros ? [?|?]; discriminate.
    + unfold SInv. cbn. split; [exact S1|]. split; [reflexivity|]. split; [exact S3|]. split; [exact S4|]. intros _. exact S5.
  - destruct (mstep TSv kk true s) as [s1 k1] eqn:MS. injection HX as <-. apply (man_sv s true kk _ I E). rewrite MS. destruct k1; reflexivity.
  - destruct (mstep TSv kk true s) as [s1 k1] eqn:MS. injection HX as <-. apply (man_sv s true kk _ I E). rewrite MS. destruct k1; reflexivity.
  - destruct (mstep TSv kk false s) as [s1 k1] eqn:MS. injection HX as <-. apply (man_sv s false kk _ I E). rewrite MS. destruct k1; reflexivity.
  - injection HX as <-. gg GO (SClr2 r) E. unfold SInv. cbn. destruct r.
    + destruct S as ((A1&A2&A3&A4&A5&A6)&A7). split; [eauto|]. split; [reflexivity|]. unfold quiet. cbn. auto.
    + destruct S as (A1&A2&A3&A4). split; [eauto|]. split; [reflexivity|]. split; [exact (NO eq_refl eq_refl)|].
      split; [exact A3|]. destruct A4 as [(_&A&_)|(_&A&_)]; auto.
    + destruct S as (A1&A2&A3). split; [reflexivity|]. split; [exact A2|exact A3].
  - injection HX as <-. gg GO (SClr3 r) E. destruct r; exact S.
  - injection HX as <-. gg GO (SClr4 r) E. destruct r; exact S.
  - injection HX as <-. exists pubs, PFree.
    assert (L' : forall s2, l0 s2 = l0 s -> l1 s2 = l1 s -> upd s2 = upd s -> used s2 = used s -> rt s2 = rt s -> sv s2 = SIdle -> LInv s2 pubs).
    { intros s2 E0 E1 EU Eu Er Ev. eapply L_sv; try eassumption; rewrite ?Ev; try discriminate.
      - intros ? ?. left. rewrite E. discriminate.
      - intros ? [?|?]; discriminate. }
    assert (MX : mtx s = None \/ mtx s = Some TSv).
    { destruct r; [destruct S as (_&_&(_&_&S))|destruct S as (_&_&_&_&S)|destruct S as (_&_&(_&_&S))]; auto. }
    assert (WR : do_switch s = false /\ win (rt s) = false /\ rman (rt s) = false).
    { destruct r; [destruct S as (_&A&(B&C&_))|destruct S as (_&A&B&C&_)|destruct S as (A&_&(B&C&_))]; auto. }
    assert (SO : forall h, switch_ok PFree (updating (rt s)) h -> switch_ok p (updating (rt s)) (ERet r :: h)).
    { intros h Hh. cbn. destruct r; [destruct S as (A&_)|destruct S as (A&_)|destruct S as (_&A&_)]; split; assumption. }
    destruct WR as (W1&W2&W3). destruct MX as [MX|MX]; cbn [mtx set_q]; rewrite MX; (split; [|split; [|split]]).
    all: try (eapply seen_l_ev; [exact HL|reflexivity|]; intros h Hh; exact Hh).
    all: try (eapply seen_s_ev; [exact HS|reflexivity|]; exact SO).
    all: try (apply L'; reflexivity).
    all: unfold SInv, free, quiet; cbn; auto.
Qed.
Lemma run_inv l : forall s s', Inv s -> ok_schedule s l -> run s l = Some s' -> Inv s'.
Proof.
  induction l as [|a l IH]; intros s s' I [O1 O2] H; cbn in *; [injection H as <-; exact I|].
  destruct O1 as [A1 O1], O2 as [A2 O2]. destruct (step s a) as [s1|] eqn:E; [|discriminate].
  refine (IH s1 s' _ (conj O1 O2) H). destruct a as [b|x]; cbn in E.
  - injection E as <-. apply rt_inv. exact I.
  - refine (sv_inv s x s1 I _ _ E).
    + intros b i R U. apply A1. unfold first_access. rewrite U, R. reflexivity.
    + intros V ->. specialize (A2 (ltac:(unfold withdraws; rewrite V; reflexivity))).
      unfold reacting in A2. destruct (rt s); cbn in *; congruence.
Qed.
Lemma main_lists l s : ok_schedule start l -> run start l = Some s -> never_modified_in_use (history s).
Proof.
  intros O H. destruct (run_inv l start s start_inv O H) as (pubs&p&HL&_).
  specialize (HL [] I). rewrite app_nil_r in HL. exact HL.
Qed.
Lemma main_switch l s : ok_schedule start l -> run start l = Some s -> switched_once (history s).
Proof.
  intros O H. destruct (run_inv l start s start_inv O H) as (pubs&p&_&HS&_).
  specialize (HS [] I). rewrite app_nil_r in HS. exact HS.
Qed.
Lemma main_list_race l s i : ok_schedule start l -> run start l = Some s ->
  rt_uses s i -> ~ sv_writes s i.
Proof.
  intros O H U W. destruct (run_inv l start s start_inv O H) as (pubs&p&_&_&L&S).
  destruct L as (_&_&_&D&_&_&_&M). unfold rt_uses in U. destruct U as [v U]. destruct W as (k&W&->).
  assert (IN : In (negb (upd s), v) (ses (rt s))).
  { destruct (rt s); cbn in *; try contradiction; try (destruct U as [U|[]]; left; congruence); try exact U. }
  destruct (D _ IN) as [D1 _]. exact (M k W D1).
Qed.
Lemma main_request_race l s : ok_schedule start l -> run start l = Some s -> rt_reads_request s -> ~ sv_writes_request s.
Proof.
  intros O H U W. destruct (run_inv l start s start_inv O H) as (pubs&p&_&_&_&S).
  assert (X : win (rt s) = false /\ rman (rt s) = false).
  { unfold SInv in S. destruct W as [W|[r W]]; rewrite W in S.
    - destruct S as (_&_&A&B&_). auto.
    - destruct r; [destruct S as (_&_&A&B&_)|destruct S as (_&_&A&B&_)|destruct S as (_&_&A&B&_)]; auto. }
  unfold rt_reads_request in U. destruct (rt s); cbn in X; try contradiction; destruct X; discriminate.
Qed.
