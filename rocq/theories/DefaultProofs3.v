(** DefaultProofs3.v -- C79: the handles behind the exported interfaces. *)
From Coq Require Import ZArith Permutation Lia.
From Verif Require Import LimitsModel HandleModel HandleSpec ParserModel XmlTypes XmlModel Base Events HwModel RmModel LoadModel LoadSpec DefaultModel DefaultSpec DefaultProofs DefaultProofs2.
Open Scope string_scope. Open Scope nat_scope. Open Scope list_scope.

(** a handle at its place *)
Definition cell (w : HandleModel.world) (a : nat) (v : value) : Prop :=
  objs w a = Some {| HandleModel.hv := Some v; HandleModel.ht := type_of v; HandleModel.hp := inner a (Some v) |}.
Definition clear_from (w : HandleModel.world) (n : nat) : Prop := forall a, n <= a -> objs w a = None.

Lemma cell_new w n v : clear_from w n -> exists w', HandleModel.step (New n v) w = HandleModel.Ok RUnit w' /\
  cell w' n v /\ clear_from w' (S n) /\ forall a x, a < n -> cell w a x -> cell w' a x.
Proof.
  intros C. cbn [HandleModel.step]. rewrite (C n (Nat.le_refl n)). eexists. split; [reflexivity|]. split; [|split].
  - unfold cell. cbn [objs set_obj]. rewrite Nat.eqb_refl. reflexivity.
  - intros a L. cbn [objs set_obj]. destruct (Nat.eqb_spec a n); [lia|]. apply C. lia.
  - intros a x L H. unfold cell in *. cbn [objs set_obj]. destruct (Nat.eqb_spec a n); [lia|exact H].
Qed.
Lemma dtype_eqb_spec a b : dtype_eqb a b = true <-> a = b.
Proof. destruct a, b; cbn; split; intros E; congruence. Qed.
Lemma cell_set w a v new : cell w a v -> value_ok v -> value_ok new ->
  if dtype_eqb (type_of new) (type_of v)
  then exists w', HandleModel.step (Set_ a new true) w = HandleModel.Ok (RBool true) w' /\ cell w' a new /\
       (forall b x, b <> a -> cell w b x -> cell w' b x) /\ (forall b, objs w b = None -> objs w' b = None)
  else HandleModel.step (Set_ a new true) w = HandleModel.Throws.
Proof.
  intros C V N. unfold cell in *. cbn [HandleModel.step]. unfold HandleModel.set. rewrite C. cbn [negb HandleModel.hp HandleModel.hv].
  destruct new as [x|x|b|t z]; destruct v as [y|y|c|s q]; cbn [type_of dtype_eqb inner]; try reflexivity.
  all: try (destruct N as (N1 & N2 & N3)); try (destruct V as (V1 & V2 & V3)).
  all: try (destruct t; try congruence; reflexivity).
  all: try (destruct s; try congruence; reflexivity).
  - cbn [store_ptr]. rewrite C. cbn [HandleModel.hv HandleModel.ht HandleModel.hp]. eexists. split; [reflexivity|]. cbn [objs set_obj].
    split; [rewrite Nat.eqb_refl; reflexivity|]. split; intros b; [intros u D H|intros H].
    + rewrite (proj2 (Nat.eqb_neq b a) D). exact H.
    + destruct (Nat.eqb_spec b a) as [->|]; [congruence|exact H].
  - eexists. split; [reflexivity|]. cbn [objs set_obj]. split; [rewrite Nat.eqb_refl; reflexivity|]. split; intros b; [intros u D H|intros H].
    + rewrite (proj2 (Nat.eqb_neq b a) D). exact H.
    + destruct (Nat.eqb_spec b a) as [->|]; [congruence|exact H].
  - eexists. split; [reflexivity|]. cbn [objs set_obj]. split; [rewrite Nat.eqb_refl; reflexivity|]. split; intros d; [intros u D H|intros H].
    + rewrite (proj2 (Nat.eqb_neq d a) D). exact H.
    + destruct (Nat.eqb_spec d a) as [->|]; [congruence|exact H].
  - destruct (dtype_eqb s t) eqn:E.
    + apply dtype_eqb_spec in E. subst t. replace (dtype_eqb s s) with true by (symmetry; apply dtype_eqb_spec; reflexivity).
      eexists. split; [reflexivity|]. cbn [objs set_obj]. split; [rewrite Nat.eqb_refl; reflexivity|]. split; intros d; [intros u D H|intros H].
      * rewrite (proj2 (Nat.eqb_neq d a) D). exact H.
      * destruct (Nat.eqb_spec d a) as [->|]; [congruence|exact H].
    + destruct (dtype_eqb t s) eqn:E2; [apply dtype_eqb_spec in E2; subst; rewrite (proj2 (dtype_eqb_spec s s) eq_refl) in E; discriminate|reflexivity].
Qed.
Lemma cell_get w a v T : cell w a v -> value_ok v ->
  HandleModel.step (Get a T true) w = match seen v T with Got x => HandleModel.Ok (RVal (Some x)) w | _ => HandleModel.Throws end.
Proof.
  intros C V. unfold cell in *. cbn [HandleModel.step]. unfold HandleModel.get. rewrite C. cbn [negb HandleModel.hp HandleModel.hv HandleModel.ht]. unfold seen.
  destruct v as [y|y|c|s q]; cbn [type_of dtype_eqb inner].
  - destruct T; try reflexivity. cbn [load_ptr]. rewrite C. reflexivity.
  - destruct T; reflexivity.
  - destruct T; try reflexivity. 
  - destruct V as (V1 & V2 & V3). destruct T, s; try congruence; reflexivity.
Qed.

(** ---- building *)
Lemma put_app (m : alist nat) d : ~ In (fst d) (map fst m) -> put_new m d = m ++ [d].
Proof.
  intros N. unfold put_new. destruct (aget m (fst d)) eqn:G; [|reflexivity]. exfalso. apply N. clear N.
  induction m as [|[k v] m IH]; [discriminate|]. cbn in *. destruct (String.eqb_spec (fst d) k) as [->|]; [left; reflexivity|right; apply IH; exact G].
Qed.
Lemma fold_put l : forall m : alist nat, NoDup (map fst (m ++ l)) -> fold_left put_new l m = m ++ l.
Proof.
  induction l as [|d l IH]; intros m N; cbn [fold_left]; [rewrite app_nil_r; reflexivity|].
  assert (X : ~ In (fst d) (map fst m)).
  { intros I. rewrite map_app in N. cbn [map] in N. apply NoDup_remove_2 in N. apply N. apply in_or_app. left. exact I. }
  rewrite (put_app _ _ X), IH; [rewrite <- app_assoc; reflexivity|]. rewrite <- app_assoc. exact N.
Qed.
Lemma add_c_app l : forall m : alist nat, NoDup (map fst (m ++ l)) -> add_c m l = m ++ l.
Proof.
  induction l as [|d l IH]; intros m N; cbn [add_c]; [rewrite app_nil_r; reflexivity|].
  assert (X : ~ In (fst d) (map fst m)).
  { intros I. rewrite map_app in N. cbn [map] in N. apply NoDup_remove_2 in N. apply N. apply in_or_app. left. exact I. }
  pose proof (put_app _ _ X) as P. unfold put_new in P. destruct (aget m (fst d)) eqn:G.
  - exfalso. apply (f_equal (@List.length _)) in P. rewrite app_length in P. cbn in P. lia.
  - rewrite IH; [rewrite <- app_assoc; reflexivity|]. rewrite <- app_assoc. exact N.
Qed.
Lemma nodup_no (l r : list string) k : NoDup (l ++ r) -> In k l -> In k r -> False.
Proof.
  induction l as [|y l IH]; intros N J J2; [destruct J|]. inversion N as [|? ? N1 N2]; subst.
  destruct J as [->|J]; [apply N1; apply in_or_app; right; exact J2|exact (IH N2 J J2)].
Qed.
Ltac rwm M := match type of M with _ = ?R => match goal with |- context [make ?u ?l ?a ?b ?c] => replace (make u l a b c) with R by (symmetry; exact M) end end.
Lemma make_ok u l : forall w n own, clear_from w n -> (forall d, In d l -> initial u (snd d) <> None) -> NoDup (map fst own ++ map fst l) ->
  exists w' hs, make u l w n own = (w', n + length l, own ++ hs, Some hs) /\ clear_from w' (n + length l) /\
    (forall a x, a < n -> cell w a x -> cell w' a x) /\
    map fst hs = map fst l /\ map snd hs = seq n (length l) /\
    (forall k i a v, In (k, i) l -> In (k, a) hs -> initial u i = Some v -> cell w' a v).
Proof.
  induction l as [|[k i] l IH]; intros w n own C V N.
  - exists w, []. cbn. rewrite Nat.add_0_r, app_nil_r. repeat split; auto. intros k i a v [].
  - cbn [make]. destruct (initial u i) as [v|] eqn:Iv; [|exfalso; apply (V (k, i) (or_introl eq_refl)); exact Iv].
    destruct (cell_new w n v C) as (w1 & E & C1 & C2 & C3). rewrite E. cbv beta iota zeta.
    assert (NK : ~ In k (map fst own)).
    { intros I. cbn [map fst] in N. apply NoDup_remove_2 in N. apply N. apply in_or_app. left. exact I. }
    rewrite (put_app own (k, n)); [|exact NK].
    destruct (IH w1 (S n) (own ++ [(k, n)])) as (w' & hs & M & D & K & F & S_ & R).
    + exact C2.
    + intros d I. apply V. right. exact I.
    + rewrite map_app. cbn [map fst]. rewrite <- app_assoc. exact N.
    + match goal with |- context [make u l ?a ?b ?c] => change (make u l a b c) with (make u l w1 (S n) (own ++ [(k, n)])) end. rewrite M. exists w', ((k, n) :: hs). cbn [length map fst snd seq option_map].
      replace (n + S (length l)) with (S n + length l) by lia. split; [rewrite <- app_assoc; reflexivity|].
      split; [exact D|]. split; [intros a x L H; apply K; [lia|apply C3; assumption]|].
      split; [f_equal; exact F|]. split; [f_equal; exact S_|].
      intros k' i' a v' [E1|I1] [E2|I2] V'.
      * injection E1 as <- <-. injection E2 as <-. assert (v' = v) as -> by congruence. apply K; [lia|exact C1].
      * exfalso. injection E1 as <- <-. cbn [map fst] in N. apply NoDup_remove_2 in N. apply N. apply in_or_app. right. rewrite <- F. change k with (fst (k, a)). apply in_map. exact I2.
      * exfalso. injection E2 as <- <-. cbn [map fst] in N. apply NoDup_remove_2 in N. apply N. apply in_or_app. right. change k with (fst (k, i')). apply in_map. exact I1.
      * eapply R; eassumption.
Qed.

(** a memory of components [hs]: each with its own places, the manager's maps being all of them *)
Definition cmds_made (u : host) (h : hw_info) : list (name * itf_info) := if String.eqb (XmlTypes.h_type h) "sensor" then [] else cmds_of u h.
Record built (u : host) (hs : list hw_info) (m : mem) : Prop := {
  b_clear : clear_from (m_w m) (m_next m);
  b_sn : map fst (m_own_s m) = map XmlTypes.h_name hs;
  b_cn : map fst (m_own_c m) = map XmlTypes.h_name hs;
  b_s : m_smap m = flat_map snd (m_own_s m);
  b_c : m_cmap m = flat_map snd (m_own_c m);
  b_own_s : Forall2 (fun o h => map fst (snd o) = map fst (states_of u h)) (m_own_s m) hs;
  b_own_c : Forall2 (fun o h => map fst (snd o) = map fst (cmds_made u h)) (m_own_c m) hs;
  b_addr : NoDup (map snd (m_smap m ++ m_cmap m));
  b_low : forall a, In a (map snd (m_smap m ++ m_cmap m)) -> a < m_next m;
  b_vs : forall h k i a v, In h hs -> In (k, i) (states_of u h) -> In (k, a) (m_smap m) -> initial u i = Some v -> cell (m_w m) a v;
  b_vc : forall h k i a v, In h hs -> In (k, i) (cmds_made u h) -> In (k, a) (m_cmap m) -> initial u i = Some v -> cell (m_w m) a v
}.
Lemma names_flat (u : host) hs (own : alist (alist nat)) (f : hw_info -> list (name * itf_info)) :
  Forall2 (fun o h => map fst (snd o) = map fst (f h)) own hs -> map fst (flat_map snd own) = flat_map (fun h => map fst (f h)) hs.
Proof. clear u. intros H. induction H as [|o h own hs E H IH]; [reflexivity|]. cbn [flat_map]. rewrite map_app, E, IH. reflexivity. Qed.
Lemma seq_nodup_app (l : list nat) n k : NoDup l -> (forall a, In a l -> a < n) -> NoDup (l ++ seq n k).
Proof.
  intros N L. induction l as [|a l IH]; [apply seq_NoDup|]. inversion N as [|? ? X Y]; subst. cbn. constructor.
  - intros I. apply in_app_iff in I. destruct I as [I|I]; [exact (X I)|]. apply in_seq in I. specialize (L a (or_introl eq_refl)). lia.
  - apply IH; [exact Y|]. intros b B. apply L. right. exact B.
Qed.
Lemma built_step u hs h m : built u hs m -> a_type h ->
  NoDup (flat_map (fun x => map fst (states_of u x)) (hs ++ [h])) -> NoDup (flat_map (fun x => map fst (cmds_made u x)) (hs ++ [h])) ->
  (forall d, In d (states_of u h) \/ In d (cmds_made u h) -> initial u (snd d) <> None) ->
  built u (hs ++ [h]) (import_hw u m h).
Proof.
  intros B T NS NC V. destruct B as [BC Bsn Bcn Bs Bc Bos Boc Ba Bl Bvs Bvc].
  pose proof (names_flat u hs _ _ Bos) as FS. pose proof (names_flat u hs _ _ Boc) as FC. rewrite <- Bs in FS. rewrite <- Bc in FC.
  rewrite flat_map_app in NS, NC. cbn [flat_map] in NS, NC. rewrite app_nil_r in NS, NC.
  destruct (make_ok u (states_of u h) (m_w m) (m_next m) [] BC) as (w1 & ls & M1 & C1 & K1 & F1 & S1 & R1).
  { intros d D. apply V. left. exact D. }
  { cbn [map app]. apply nodup_app_r in NS. exact NS. }
  destruct (make_ok u (cmds_made u h) w1 (m_next m + length (states_of u h)) [] C1) as (w2 & lc & M2 & C2 & K2 & F2 & S2 & R2).
  { intros d D. apply V. right. exact D. }
  { cbn [map app]. apply nodup_app_r in NC. exact NC. }
  assert (E : import_hw u m h = {| m_w := w2; m_next := m_next m + length (states_of u h) + length (cmds_made u h);
     m_own_s := m_own_s m ++ [(XmlTypes.h_name h, ls)]; m_own_c := m_own_c m ++ [(XmlTypes.h_name h, lc)];
     m_smap := add_s (m_smap m) ls; m_cmap := add_c (m_cmap m) lc |}).
  { unfold import_hw. rwm M1. destruct (type_cases h T) as [E|[E|E]]; rewrite E; cbn [kind_of String.eqb Ascii.eqb Bool.eqb].
    - unfold cmds_made in M2. rewrite E in M2. cbn [String.eqb Ascii.eqb Bool.eqb] in M2. rwm M2. unfold cmds_made. rewrite E. reflexivity.
    - unfold cmds_made in *. rewrite E in *. cbn [String.eqb Ascii.eqb Bool.eqb make length or_none] in *. injection M2 as <- _ <-.  rewrite Nat.add_0_r. reflexivity.
    - unfold cmds_made in M2. rewrite E in M2. cbn [String.eqb Ascii.eqb Bool.eqb] in M2. rwm M2. unfold cmds_made. rewrite E. reflexivity. }
  assert (AS : add_s (m_smap m) ls = m_smap m ++ ls) by (apply fold_put; rewrite map_app; unfold name, alist in *; rewrite FS, F1; exact NS).
  assert (AC : add_c (m_cmap m) lc = m_cmap m ++ lc) by (apply add_c_app; rewrite map_app; unfold name, alist in *; rewrite FC, F2; exact NC).
  rewrite AS, AC in E. rewrite E. clear E AS AC.
  assert (LOW : forall a, In a (map snd (m_smap m)) \/ In a (map snd (m_cmap m)) -> a < m_next m) by (intros a H; apply Bl; unfold name, alist in *; rewrite map_app; apply in_or_app; exact H).
  split; cbn [m_w m_next m_own_s m_own_c m_smap m_cmap]; unfold name, alist in *.
  - exact C2.
  - rewrite !map_app, Bsn. reflexivity.
  - rewrite !map_app, Bcn. reflexivity.
  - rewrite flat_map_app, Bs. cbn. rewrite app_nil_r. reflexivity.
  - rewrite flat_map_app, Bc. cbn. rewrite app_nil_r. reflexivity.
  - apply Forall2_app; [exact Bos|]. constructor; [exact F1|constructor].
  - apply Forall2_app; [exact Boc|]. constructor; [exact F2|constructor].
  - assert (P : Permutation (map snd ((m_smap m ++ ls) ++ m_cmap m ++ lc)) (map snd (m_smap m ++ m_cmap m) ++ seq (m_next m) (length (states_of u h) + length (cmds_made u h)))).
    { unfold name, alist in *; rewrite seq_app, !map_app, S1, S2, <- !app_assoc. apply Permutation_app_head. rewrite !app_assoc. apply Permutation_app_tail. apply Permutation_app_comm. }
    eapply Permutation_NoDup; [apply Permutation_sym; exact P|]. apply seq_nodup_app; [exact Ba|exact Bl].
  - intros a H. unfold name, alist in *. rewrite !map_app, !in_app_iff in H. rewrite S1, S2 in H. rewrite !in_seq in H.
    assert (Q : a < m_next m \/ m_next m <= a < m_next m + length (states_of u h) + length (cmds_made u h)) by (unfold name, alist in *; destruct H as [[H|H]|[H|H]]; [left; apply LOW; auto|lia|left; apply LOW; auto|lia]). unfold name, alist in *; lia.
  - intros x k i a v X I A Iv. apply in_app_iff in A. destruct A as [A|A].
    + assert (Xs : In x hs).
      { apply in_app_iff in X. destruct X as [X|[<-|[]]]; [exact X|]. exfalso. assert (J : In k (map fst (m_smap m))) by (change k with (fst (k, a)); apply in_map; exact A).
        unfold name, alist in *; rewrite FS in J. assert (J2 : In k (map fst (states_of u h))) by (change k with (fst (k, i)); apply in_map; exact I).
        exact (nodup_no _ _ k NS J J2). }
      assert (L : a < m_next m) by (apply LOW; left; change a with (snd (k, a)); apply in_map; exact A).
      apply K2; [unfold name, alist in *; lia|]. apply K1; [exact L|]. exact (Bvs x k i a v Xs I A Iv).
    + assert (X' : x = h).
      { apply in_app_iff in X. destruct X as [X|[<-|[]]]; [|reflexivity]. exfalso.
        assert (J2 : In k (map fst (states_of u h))) by (unfold name, alist in *; rewrite <- F1; change k with (fst (k, a)); apply in_map; exact A).
        assert (J : In k (flat_map (fun x => map fst (states_of u x)) hs)) by (apply in_flat_map; exists x; split; [exact X|change k with (fst (k, i)); apply in_map; exact I]).
        exact (nodup_no _ _ k NS J J2). }
      subst x. assert (L : a < m_next m + length (states_of u h)) by (assert (Z : In a (map snd ls)) by (change a with (snd (k, a)); apply in_map; exact A); unfold name, alist in *; rewrite S1 in Z; apply in_seq in Z; lia).
      apply K2; [exact L|]. exact (R1 k i a v I A Iv).
  - intros x k i a v X I A Iv. apply in_app_iff in A. destruct A as [A|A].
    + assert (Xs : In x hs).
      { apply in_app_iff in X. destruct X as [X|[<-|[]]]; [exact X|]. exfalso. assert (J : In k (map fst (m_cmap m))) by (change k with (fst (k, a)); apply in_map; exact A).
        unfold name, alist in *; rewrite FC in J. assert (J2 : In k (map fst (cmds_made u h))) by (change k with (fst (k, i)); apply in_map; exact I).
        exact (nodup_no _ _ k NC J J2). }
      assert (L : a < m_next m) by (apply LOW; right; change a with (snd (k, a)); apply in_map; exact A).
      apply K2; [unfold name, alist in *; lia|]. apply K1; [exact L|]. exact (Bvc x k i a v Xs I A Iv).
    + assert (X' : x = h).
      { apply in_app_iff in X. destruct X as [X|[<-|[]]]; [|reflexivity]. exfalso.
        assert (J2 : In k (map fst (cmds_made u h))) by (unfold name, alist in *; rewrite <- F2; change k with (fst (k, a)); apply in_map; exact A).
        assert (J : In k (flat_map (fun x => map fst (cmds_made u x)) hs)) by (apply in_flat_map; exists x; split; [exact X|change k with (fst (k, i)); apply in_map; exact I]).
        exact (nodup_no _ _ k NC J J2). }
      subst x. exact (R2 k i a v I A Iv).
Qed.
Lemma empty_built u : built u [] empty_mem.
Proof.
  split; cbn; try reflexivity; try constructor; try (intros; contradiction).
Qed.
Lemma build_built u hs : (forall h, In h hs -> a_type h) ->
  NoDup (flat_map (fun x => map fst (states_of u x)) hs) -> NoDup (flat_map (fun x => map fst (cmds_made u x)) hs) ->
  (forall h d, In h hs -> In d (states_of u h) \/ In d (cmds_made u h) -> initial u (snd d) <> None) -> built u hs (build u hs).
Proof.
  induction hs as [|h hs IH] using rev_ind; intros T NS NC V; [apply empty_built|].
  unfold build. rewrite fold_left_app. cbn [fold_left]. apply built_step; try assumption.
  - apply IH.
    + intros x X. apply T. apply in_or_app. left. exact X.
    + rewrite flat_map_app in NS. apply nodup_app_l in NS. exact NS.
    + rewrite flat_map_app in NC. apply nodup_app_l in NC. exact NC.
    + intros x d X D. apply (V x d); [apply in_or_app; left; exact X|exact D].
  - apply T. apply in_or_app. right. left. reflexivity.
  - intros d D. apply (V h d); [apply in_or_app; right; left; reflexivity|exact D].
Qed.
