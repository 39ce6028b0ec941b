(** DefaultProofs5.v -- C79: the accesses by name, put together. *)
From Coq Require Import ZArith Permutation Lia.
From Verif Require Import LimitsModel HandleModel HandleSpec ParserModel XmlTypes XmlModel Base Events HwModel RmModel LoadModel LoadSpec DefaultModel DefaultSpec DefaultProofs DefaultProofs2 DefaultProofs3 DefaultProofs4.
Open Scope string_scope. Open Scope nat_scope. Open Scope list_scope.

Lemma made_perm u h : some_order u -> a_type h -> NoDup (map fst (offered_cmds u h)) -> Permutation (cmds_made u h) (offered_cmds u h).
Proof.
  intros O T N. unfold cmds_made. destruct (String.eqb_spec (XmlTypes.h_type h) "sensor") as [E|E]; [|apply cmds_perm; assumption].
  unfold offered_cmds, parts_with_cmds. rewrite E. cbn. constructor.
Qed.
Lemma offered_s u hs h : sound_robot u hs -> some_order u -> In h hs -> Permutation (states_of u h) (offered_states u h).
Proof. intros R O I. apply states_perm; [exact O|exact (sr_types _ _ R h I)|exact (nodup_flat _ _ _ (sr_states _ _ R) I)]. Qed.
Lemma offered_c u hs h : sound_robot u hs -> some_order u -> In h hs -> Permutation (cmds_made u h) (offered_cmds u h).
Proof. intros R O I. apply made_perm; [exact O|exact (sr_types _ _ R h I)|exact (nodup_flat _ _ _ (sr_cmds _ _ R) I)]. Qed.
Lemma sound_s u hs : sound_robot u hs -> some_order u -> NoDup (flat_map (fun h => map fst (states_of u h)) hs).
Proof.
  intros R O. eapply Permutation_NoDup; [|exact (sr_states _ _ R)]. apply Permutation_sym. apply flat_perm. intros h I. apply Permutation_map. exact (offered_s u hs h R O I).
Qed.
Lemma sound_c u hs : sound_robot u hs -> some_order u -> NoDup (flat_map (fun h => map fst (cmds_made u h)) hs).
Proof.
  intros R O. eapply Permutation_NoDup; [|exact (sr_cmds _ _ R)]. apply Permutation_sym. apply flat_perm. intros h I. apply Permutation_map. exact (offered_c u hs h R O I).
Qed.
Lemma sound_value u hs h d : sound_robot u hs -> some_order u -> In h hs -> In d (states_of u h) \/ In d (cmds_made u h) -> exists v, starts_with u (snd d) v.
Proof.
  intros R O I [D|D]; apply (sr_values _ _ R h d I); [left; exact (Permutation_in _ (offered_s u hs h R O I) D)|right; exact (Permutation_in _ (offered_c u hs h R O I) D)].
Qed.
Lemma sound_built u hs : sound_robot u hs -> some_order u -> built u hs (build u hs).
Proof.
  intros R O. apply build_built; [exact (sr_types _ _ R)|exact (sound_s _ _ R O)|exact (sound_c _ _ R O)|].
  intros h d I D. destruct (sound_value u hs h d R O I D) as (v & V). rewrite (initial_in _ _ _ V). discriminate.
Qed.
Lemma starts_ok u i v : starts_with u i v -> value_ok v.
Proof.
  intros [_ H]. destruct (String.eqb (ii_initial i) "").
  - destruct H; try exact Logic.I. apply fits_int in H. exact H.
  - destruct H; try exact Logic.I. apply fits_int in H0. exact H0.
Qed.
Lemma sound_full u hs : sound_robot u hs -> some_order u -> full_mem (build u hs).
Proof.
  intros R O. pose proof (sound_built u hs R O) as [Cl Sn Cn Sm Cm OwS OwC Ad Lo VS VC]. set (m := build u hs) in *.
  pose proof (names_flat u hs _ _ OwS) as FS. pose proof (names_flat u hs _ _ OwC) as FC.
  assert (QS : forall n b, In (n, b) (m_smap m) -> exists v, value_ok v /\ cell (m_w m) b v).
  { intros n b I. assert (J : In n (flat_map (fun h => map fst (states_of u h)) hs)) by (unfold name, alist in *; rewrite <- FS, <- Sm; change n with (fst (n, b)); apply in_map; exact I).
    apply in_flat_map in J. destruct J as (h & H & J). apply in_map_iff in J. destruct J as ([n' i] & E & J). cbn in E. subst n'.
    destruct (sound_value u hs h (n, i) R O H (or_introl J)) as (v & V). exists v. split; [exact (starts_ok _ _ _ V)|].
    exact (VS h n i b v H J I (initial_in _ _ _ V)). }
  assert (QC : forall n b, In (n, b) (m_cmap m) -> exists v, value_ok v /\ cell (m_w m) b v).
  { intros n b I. assert (J : In n (flat_map (fun h => map fst (cmds_made u h)) hs)) by (unfold name, alist in *; rewrite <- FC, <- Cm; change n with (fst (n, b)); apply in_map; exact I).
    apply in_flat_map in J. destruct J as (h & H & J). apply in_map_iff in J. destruct J as ([n' i] & E & J). cbn in E. subst n'.
    destruct (sound_value u hs h (n, i) R O H (or_intror J)) as (v & V). exists v. split; [exact (starts_ok _ _ _ V)|].
    exact (VC h n i b v H J I (initial_in _ _ _ V)). }
  assert (PS : forall c n b, in_own (m_own_s m) c n = Some b -> exists v, value_ok v /\ cell (m_w m) b v).
  { intros c n b E. apply in_own_in in E. destruct E as (mm & I1 & I2). apply (QS n). rewrite Sm. apply in_flat_map. exists (c, mm). split; assumption. }
  assert (PC : forall c n b, in_own (m_own_c m) c n = Some b -> exists v, value_ok v /\ cell (m_w m) b v).
  { intros c n b E. apply in_own_in in E. destruct E as (mm & I1 & I2). apply (QC n). rewrite Cm. apply in_flat_map. exists (c, mm). split; assumption. }
  intros x b P. destruct x; cbn [place] in P; [exact (PS _ _ _ P)|exact (PS _ _ _ P)|exact (PC _ _ _ P)|exact (PC _ _ _ P)| | | ].
  - exact (QS _ _ (aget_some _ _ _ P)).
  - exact (QC _ _ (aget_some _ _ _ P)).
  - exact (QC _ _ (aget_some _ _ _ P)).
Qed.
(** what an access to a full place answers *)
Lemma answer_get m x a v T : place m x = Some a -> on_handle x a = Get a T true -> cell (m_w m) a v -> value_ok v -> snd (do_access m x) = seen v T.
Proof.
  intros P H C V. unfold do_access. rewrite P, H, (cell_get _ _ _ T C V). destruct (seen v T) eqn:E; try reflexivity.
  exfalso. unfold seen in E. destruct (dtype_eqb (type_of v) T); [discriminate|]. destruct v; try discriminate. destruct T; discriminate.
Qed.
Lemma answer_set m x a v new : place m x = Some a -> on_handle x a = Set_ a new true -> cell (m_w m) a v -> value_ok v -> value_ok new -> snd (do_access m x) = taken v new.
Proof.
  intros P H C V N. unfold do_access, taken. rewrite P, H. pose proof (cell_set _ _ _ new C V N) as Q. destruct (dtype_eqb (type_of new) (type_of v)).
  - destruct Q as (w' & -> & _). reflexivity.
  - rewrite Q. reflexivity.
Qed.
Lemma addr_apart (s c : list (string * nat)) n n' a : NoDup (map snd (s ++ c)) -> In (n, a) s -> In (n', a) c -> False.
Proof.
  intros N I J. rewrite map_app in N. induction s as [|[k b] s IH]; [destruct I|]. cbn in N. inversion N as [|? ? X Y]; subst.
  destruct I as [E|I]; [injection E as -> ->; apply X; apply in_or_app; right; change a with (snd (n', a)); apply in_map; exact J|exact (IH Y I)].
Qed.
Lemma addr_l (s c : list (string * nat)) : NoDup (map snd (s ++ c)) -> NoDup (map snd s).
Proof. rewrite map_app. apply nodup_app_l. Qed.
Lemma addr_r (s c : list (string * nat)) : NoDup (map snd (s ++ c)) -> NoDup (map snd c).
Proof. rewrite map_app. apply nodup_app_r. Qed.

Theorem states u hs h n i v0 l : some_order u -> sound_robot u hs -> In h hs -> In (n, i) (offered_states u h) -> starts_with u i v0 -> Forall access_ok l ->
  let m := do_all (build u hs) l in let v := latest (state_store (XmlTypes.h_name h) n) v0 l in
  (forall T, snd (do_access m (CtrlGetState n T)) = seen v T) /\
  (forall T, snd (do_access m (CompGetState (XmlTypes.h_name h) n T)) = seen v T) /\
  (forall new, value_ok new -> snd (do_access m (CompSetState (XmlTypes.h_name h) n new)) = taken v new).
Proof.
  intros O R I D V A. pose proof (sound_built u hs R O) as [Cl Sn Cn Sm Cm OwS OwC Ad Lo VS VC].
  pose proof (Permutation_in _ (Permutation_sym (offered_s u hs h R O I)) D) as D'.
  destruct (found (states_of u) hs _ h n i (sr_names _ _ R) Sn OwS (sound_s _ _ R O) I D') as (a & mm & M1 & M2 & P1 & P2).
  unfold name, alist in *. rewrite <- Sm in P2. pose proof (aget_some _ _ _ P2) as IS.
  pose proof (VS h n i a v0 I D' IS (initial_in _ _ _ V)) as C0.
  destruct (do_many l _ (sound_full u hs R O) A) as (SM & _ & K). destruct (K a v0 C0 (starts_ok _ _ _ V)) as [C2 V2].
  assert (E : latest (at_place (build u hs) a) v0 l = latest (state_store (XmlTypes.h_name h) n) v0 l).
  { apply latest_ext. intros x. unfold at_place, state_store. destruct x as [c k w|c k T|c k w|c k T|k T|k T|k w]; cbn [place stored].
    - destruct (String.eqb_spec c (XmlTypes.h_name h)) as [->|NE]; [destruct (String.eqb_spec k n) as [->|NE]|]; cbn [andb].
      + rewrite P1, Nat.eqb_refl. reflexivity.
      + destruct (in_own _ _ k) as [b|] eqn:Q; [|reflexivity]. destruct (Nat.eqb_spec b a) as [->|]; [|reflexivity]. exfalso.
        apply in_own_in in Q. destruct Q as (mm' & Q1 & Q2). rewrite Sm in Ad. destruct (owner_unique _ _ _ _ _ _ _ _ (addr_l _ _ Ad) M1 M2 Q1 Q2) as [_ Z]. congruence.
      + destruct (in_own _ _ k) as [b|] eqn:Q; [|reflexivity]. destruct (Nat.eqb_spec b a) as [->|]; [|reflexivity]. exfalso.
        apply in_own_in in Q. destruct Q as (mm' & Q1 & Q2). rewrite Sm in Ad. destruct (owner_unique _ _ _ _ _ _ _ _ (addr_l _ _ Ad) M1 M2 Q1 Q2) as [Z _]. congruence.
    - destruct (in_own _ c k); [destruct (Nat.eqb _ _)|]; reflexivity.
    - destruct (in_own _ c k) as [b|] eqn:Q; [|reflexivity]. destruct (Nat.eqb_spec b a) as [->|]; [|reflexivity]. exfalso.
      apply in_own_in in Q. destruct Q as (mm' & Q1 & Q2). apply (addr_apart _ _ n k a Ad IS). rewrite Cm. apply in_flat_map. exists (c, mm'). split; assumption.
    - destruct (in_own _ c k); [destruct (Nat.eqb _ _)|]; reflexivity.
    - destruct (aget _ k); [destruct (Nat.eqb _ _)|]; reflexivity.
    - destruct (aget _ k); [destruct (Nat.eqb _ _)|]; reflexivity.
    - destruct (aget _ k) as [b|] eqn:Q; [|reflexivity]. destruct (Nat.eqb_spec b a) as [->|]; [|reflexivity]. exfalso.
      exact (addr_apart _ _ n k a Ad IS (aget_some _ _ _ Q)). }
  rewrite E in C2, V2. cbv zeta. split; [|split].
  - intros T. apply (answer_get _ (CtrlGetState n T) a); [rewrite (place_same _ _ (CtrlGetState n T) SM); exact P2|reflexivity|exact C2|exact V2].
  - intros T. apply (answer_get _ (CompGetState (XmlTypes.h_name h) n T) a); [rewrite (place_same _ _ (CompGetState (XmlTypes.h_name h) n T) SM); exact P1|reflexivity|exact C2|exact V2].
  - intros new NV. apply (answer_set _ (CompSetState (XmlTypes.h_name h) n new) a); [rewrite (place_same _ _ (CompSetState (XmlTypes.h_name h) n new) SM); exact P1|reflexivity|exact C2|exact V2|exact NV].
Qed.

Theorem commands u hs h n i v0 l : some_order u -> sound_robot u hs -> In h hs -> In (n, i) (offered_cmds u h) -> starts_with u i v0 -> Forall access_ok l ->
  let m := do_all (build u hs) l in let v := latest (cmd_store (XmlTypes.h_name h) n) v0 l in
  (forall T, snd (do_access m (CtrlGetCmd n T)) = seen v T) /\
  (forall T, snd (do_access m (CompGetCmd (XmlTypes.h_name h) n T)) = seen v T) /\
  (forall new, value_ok new -> snd (do_access m (CtrlSetCmd n new)) = taken v new) /\
  (forall new, value_ok new -> snd (do_access m (CompSetCmd (XmlTypes.h_name h) n new)) = taken v new).
Proof.
  intros O R I D V A. pose proof (sound_built u hs R O) as [Cl Sn Cn Sm Cm OwS OwC Ad Lo VS VC].
  pose proof (Permutation_in _ (Permutation_sym (offered_c u hs h R O I)) D) as D'.
  destruct (found (cmds_made u) hs _ h n i (sr_names _ _ R) Cn OwC (sound_c _ _ R O) I D') as (a & mm & M1 & M2 & P1 & P2).
  unfold name, alist in *. rewrite <- Cm in P2. pose proof (aget_some _ _ _ P2) as IS.
  pose proof (VC h n i a v0 I D' IS (initial_in _ _ _ V)) as C0.
  destruct (do_many l _ (sound_full u hs R O) A) as (SM & _ & K). destruct (K a v0 C0 (starts_ok _ _ _ V)) as [C2 V2].
  assert (E : latest (at_place (build u hs) a) v0 l = latest (cmd_store (XmlTypes.h_name h) n) v0 l).
  { apply latest_ext. intros x. unfold at_place, cmd_store. destruct x as [c k w|c k T|c k w|c k T|k T|k T|k w]; cbn [place stored].
    - destruct (in_own _ c k) as [b|] eqn:Q; [|reflexivity]. destruct (Nat.eqb_spec b a) as [->|]; [|reflexivity]. exfalso.
      apply in_own_in in Q. destruct Q as (mm' & Q1 & Q2). apply (addr_apart (m_smap (build u hs)) (m_cmap (build u hs)) k n a Ad); [|exact IS]. rewrite Sm. apply in_flat_map. exists (c, mm'). split; assumption.
    - destruct (in_own _ c k); [destruct (Nat.eqb _ _)|]; reflexivity.
    - destruct (String.eqb_spec c (XmlTypes.h_name h)) as [->|NE]; [destruct (String.eqb_spec k n) as [->|NE]|]; cbn [andb].
      + rewrite P1, Nat.eqb_refl. reflexivity.
      + destruct (in_own _ _ k) as [b|] eqn:Q; [|reflexivity]. destruct (Nat.eqb_spec b a) as [->|]; [|reflexivity]. exfalso.
        apply in_own_in in Q. destruct Q as (mm' & Q1 & Q2). rewrite Cm in Ad. destruct (owner_unique _ _ _ _ _ _ _ _ (addr_r _ _ Ad) M1 M2 Q1 Q2) as [_ Z]. congruence.
      + destruct (in_own _ _ k) as [b|] eqn:Q; [|reflexivity]. destruct (Nat.eqb_spec b a) as [->|]; [|reflexivity]. exfalso.
        apply in_own_in in Q. destruct Q as (mm' & Q1 & Q2). rewrite Cm in Ad. destruct (owner_unique _ _ _ _ _ _ _ _ (addr_r _ _ Ad) M1 M2 Q1 Q2) as [Z _]. congruence.
    - destruct (in_own _ c k); [destruct (Nat.eqb _ _)|]; reflexivity.
    - destruct (aget _ k); [destruct (Nat.eqb _ _)|]; reflexivity.
    - destruct (aget _ k); [destruct (Nat.eqb _ _)|]; reflexivity.
    - destruct (String.eqb_spec k n) as [->|NE].
      + rewrite P2, Nat.eqb_refl. reflexivity.
      + destruct (aget _ k) as [b|] eqn:Q; [|reflexivity]. destruct (Nat.eqb_spec b a) as [->|]; [|reflexivity]. exfalso.
        apply aget_some in Q. apply NE. apply addr_r in Ad. clear -Ad Q IS. revert Ad Q IS. generalize (m_cmap (build u hs)). intros s Ad Q IS. induction s as [|[k' b] s IH]; [destruct Q|]. cbn in Ad. inversion Ad as [|? ? X Y]; subst.
        destruct Q as [E|Q], IS as [E'|IS]; [congruence|injection E as -> ->; exfalso; apply X; change a with (snd (n, a)); apply in_map; exact IS|injection E' as -> ->; exfalso; apply X; change a with (snd (k, a)); apply in_map; exact Q|exact (IH Y Q IS)]. }
  rewrite E in C2, V2. cbv zeta. split; [|split; [|split]].
  - intros T. apply (answer_get _ (CtrlGetCmd n T) a); [rewrite (place_same _ _ (CtrlGetCmd n T) SM); exact P2|reflexivity|exact C2|exact V2].
  - intros T. apply (answer_get _ (CompGetCmd (XmlTypes.h_name h) n T) a); [rewrite (place_same _ _ (CompGetCmd (XmlTypes.h_name h) n T) SM); exact P1|reflexivity|exact C2|exact V2].
  - intros new NV. apply (answer_set _ (CtrlSetCmd n new) a); [rewrite (place_same _ _ (CtrlSetCmd n new) SM); exact P2|reflexivity|exact C2|exact V2|exact NV].
  - intros new NV. apply (answer_set _ (CompSetCmd (XmlTypes.h_name h) n new) a); [rewrite (place_same _ _ (CompSetCmd (XmlTypes.h_name h) n new) SM); exact P1|reflexivity|exact C2|exact V2|exact NV].
Qed.

(** ---- names that do not exist *)
Lemma own_has (f g : hw_info -> list (name * itf_info)) hs : forall own : list (string * list (string * nat)), map fst own = map XmlTypes.h_name hs ->
  Forall2 (fun o h => map fst (snd o) = map fst (f h)) own hs -> (forall h, In h hs -> Permutation (f h) (g h)) ->
  forall c n b, in_own own c n = Some b -> exists h, In h hs /\ XmlTypes.h_name h = c /\ In n (map fst (g h)).
Proof.
  intros own E F P c n b Q. apply in_own_in in Q. destruct Q as (mm & O & I). revert own E F O P. induction hs as [|h hs IH]; intros own E F O P; inversion F as [|[k m'] ? own' ? X Y]; subst; [destruct O|].
  injection E as E1 E2. cbn in E1. destruct O as [Z|O].
  - injection Z as -> ->. exists h. split; [left; reflexivity|]. split; [symmetry; exact E1|]. apply (Permutation_in _ (Permutation_map fst (P h (or_introl eq_refl)))).
    cbn in X. rewrite <- X. change n with (fst (n, b)). apply in_map. exact I.
  - destruct (IH own' E2 Y O (fun x J => P x (or_intror J))) as (x & X1 & X2). exists x. split; [right; exact X1|exact X2].
Qed.
Theorem unknown u hs l x : some_order u -> sound_robot u hs -> Forall access_ok l ->
  match x with
  | CompSetState c n _ | CompGetState c n _ => forall h, In h hs -> XmlTypes.h_name h = c -> ~ In n (map fst (offered_states u h))
  | CompSetCmd c n _ | CompGetCmd c n _ => forall h, In h hs -> XmlTypes.h_name h = c -> ~ In n (map fst (offered_cmds u h))
  | CtrlGetState n _ => forall h, In h hs -> ~ In n (map fst (offered_states u h))
  | CtrlGetCmd n _ | CtrlSetCmd n _ => forall h, In h hs -> ~ In n (map fst (offered_cmds u h))
  end -> do_access (do_all (build u hs) l) x = (do_all (build u hs) l, Refused).
Proof.
  intros O R A H. pose proof (sound_built u hs R O) as [Cl Sn Cn Sm Cm OwS OwC Ad Lo VS VC].
  destruct (do_many l _ (sound_full u hs R O) A) as (SM & _ & _).
  assert (P : place (build u hs) x = None).
  { pose proof (names_flat u hs _ _ OwS) as FS. pose proof (names_flat u hs _ _ OwC) as FC. unfold name, alist in *. rewrite <- Sm in FS. rewrite <- Cm in FC.
    assert (PS : forall h, In h hs -> Permutation (states_of u h) (offered_states u h)) by (intros h I; apply (offered_s u hs); assumption).
    assert (PC : forall h, In h hs -> Permutation (cmds_made u h) (offered_cmds u h)) by (intros h I; apply (offered_c u hs); assumption).
    assert (NS : forall n, (forall h, In h hs -> ~ In n (map fst (offered_states u h))) -> aget (m_smap (build u hs)) n = None).
    { intros n X. apply aget_none. intros J. assert (J' : In n (flat_map (fun h => map fst (states_of u h)) hs)) by (unfold name, alist in *; rewrite <- FS; exact J). apply in_flat_map in J'. destruct J' as (h & I & K).
      exact (X h I (Permutation_in _ (Permutation_map fst (PS h I)) K)). }
    assert (NC : forall n, (forall h, In h hs -> ~ In n (map fst (offered_cmds u h))) -> aget (m_cmap (build u hs)) n = None).
    { intros n X. apply aget_none. intros J. assert (J' : In n (flat_map (fun h => map fst (cmds_made u h)) hs)) by (unfold name, alist in *; rewrite <- FC; exact J). apply in_flat_map in J'. destruct J' as (h & I & K).
      exact (X h I (Permutation_in _ (Permutation_map fst (PC h I)) K)). }
    assert (OS : forall c n, (forall h, In h hs -> XmlTypes.h_name h = c -> ~ In n (map fst (offered_states u h))) -> in_own (m_own_s (build u hs)) c n = None).
    { intros c n X. destruct (in_own (m_own_s (build u hs)) c n) as [b|] eqn:Q; [|reflexivity]. exfalso.
      destruct (own_has (states_of u) (offered_states u) hs _ Sn OwS PS c n b Q) as (h & I & E & J). exact (X h I E J). }
    assert (OC : forall c n, (forall h, In h hs -> XmlTypes.h_name h = c -> ~ In n (map fst (offered_cmds u h))) -> in_own (m_own_c (build u hs)) c n = None).
    { intros c n X. destruct (in_own (m_own_c (build u hs)) c n) as [b|] eqn:Q; [|reflexivity]. exfalso.
      destruct (own_has (cmds_made u) (offered_cmds u) hs _ Cn OwC PC c n b Q) as (h & I & E & J). exact (X h I E J). }
    destruct x; cbn [place]; auto. }
  unfold do_access. rewrite (place_same _ _ x SM), P. reflexivity.
Qed.
