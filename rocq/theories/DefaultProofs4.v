(** DefaultProofs4.v -- C79: what the accesses by name see. *)
From Coq Require Import ZArith Permutation Lia.
From Verif Require Import LimitsModel HandleModel HandleSpec ParserModel XmlTypes XmlModel Base Events HwModel RmModel LoadModel LoadSpec DefaultModel DefaultSpec DefaultProofs DefaultProofs2 DefaultProofs3.
Open Scope string_scope. Open Scope nat_scope. Open Scope list_scope.

Lemma aget_some {A} (m : list (string * A)) k v : aget m k = Some v -> In (k, v) m.
Proof.
  induction m as [|[k' v'] m IH]; [discriminate|]. cbn. destruct (String.eqb_spec k k') as [->|]; intros E; [injection E as ->; left; reflexivity|right; apply IH; exact E].
Qed.
Lemma some_aget {A} (m : list (string * A)) k v : NoDup (map fst m) -> In (k, v) m -> aget m k = Some v.
Proof.
  induction m as [|[k' v'] m IH]; intros N I; [destruct I|]. cbn. inversion N as [|? ? X Y]; subst. destruct I as [E|I].
  - injection E as -> ->. rewrite String.eqb_refl. reflexivity.
  - destruct (String.eqb_spec k k') as [->|]; [exfalso; apply X; change k' with (fst (k', v)); apply in_map; exact I|apply IH; assumption].
Qed.
Lemma aget_none {A} (m : list (string * A)) k : ~ In k (map fst m) -> aget m k = None.
Proof. intros N. destruct (aget m k) eqn:E; [|reflexivity]. exfalso. apply N. apply aget_some in E. change k with (fst (k, a)). apply in_map. exact E. Qed.
Lemma same_block {A B} (f : A -> list B) l x y z : NoDup (flat_map f l) -> In x l -> In y l -> In z (f x) -> In z (f y) -> x = y.
Proof.
  induction l as [|w l IH]; intros N X Y Zx Zy; [destruct X|]. cbn [flat_map] in N.
  assert (D : forall v, In v l -> In z (f v) -> In z (f w) -> False).
  { intros v V H1 H2. assert (H3 : In z (flat_map f l)) by (apply in_flat_map; exists v; split; assumption). clear -N H2 H3.
    induction (f w) as [|q r IHr]; [destruct H2|]. inversion N as [|? ? N1 N2]; subst. destruct H2 as [->|H2]; [apply N1; apply in_or_app; right; exact H3|exact (IHr N2 H2)]. }
  destruct X as [<-|X], Y as [<-|Y]; [reflexivity|exfalso; eapply D; eassumption|exfalso; eapply D; eassumption|].
  apply IH; try assumption. apply nodup_app_r in N. exact N.
Qed.
Lemma own_at (f : hw_info -> list (name * itf_info)) hs : forall own : list (string * list (string * nat)), map fst own = map XmlTypes.h_name hs ->
  Forall2 (fun o h => map fst (snd o) = map fst (f h)) own hs -> forall h, In h hs -> exists mm, In (XmlTypes.h_name h, mm) own /\ map fst mm = map fst (f h).
Proof.
  induction hs as [|x hs IH]; intros own E F h I; [destruct I|]. inversion F as [|[k mm] ? own' ? Q R]; subst. injection E as E1 E2.
  destruct I as [->|I]; [exists mm; split; [left; cbn in E1; rewrite E1; reflexivity|exact Q]|].
  destruct (IH own' E2 R h I) as (m' & I1 & I2). exists m'. split; [right; exact I1|exact I2].
Qed.

(** one side: own maps, their union, the place of an offered name *)
Lemma found (f : hw_info -> list (name * itf_info)) hs (own : list (string * list (string * nat))) h n i : NoDup (map XmlTypes.h_name hs) ->
  map fst own = map XmlTypes.h_name hs -> Forall2 (fun o h => map fst (snd o) = map fst (f h)) own hs ->
  NoDup (flat_map (fun h => map fst (f h)) hs) -> In h hs -> In (n, i) (f h) ->
  exists a mm, In (XmlTypes.h_name h, mm) own /\ In (n, a) mm /\ in_own own (XmlTypes.h_name h) n = Some a /\ aget (flat_map snd own) n = Some a.
Proof.
  intros N E F ND I D. destruct (own_at f hs own E F h I) as (mm & O & K).
  assert (NM : NoDup (map fst mm)) by (rewrite K; exact (nodup_flat _ _ _ ND I)).
  assert (X : In n (map fst mm)) by (rewrite K; change n with (fst (n, i)); apply in_map; exact D).
  apply in_map_iff in X. destruct X as ([n' a] & Q & X). cbn in Q. subst n'. exists a, mm. split; [exact O|]. split; [exact X|].
  split.
  - unfold in_own. rewrite (some_aget own _ mm); [apply some_aget; assumption|rewrite E; exact N|exact O].
  - apply some_aget.
    + pose proof (names_flat (Build_host (fun _ => None) (fun _ => None) (fun l => l) (fun _ => []) (fun _ => [])) hs own f F) as Q. unfold name, alist in *. rewrite Q. exact ND.
    + apply in_flat_map. exists (XmlTypes.h_name h, mm). split; [exact O|exact X].
Qed.
Lemma in_own_in own c n a : in_own own c n = Some a -> exists mm, In (c, mm) own /\ In (n, a) mm.
Proof. unfold in_own. destruct (aget own c) as [mm|] eqn:E; [|discriminate]. intros G. exists mm. split; [apply aget_some; exact E|apply aget_some; exact G]. Qed.
Lemma owner_unique (own : list (string * list (string * nat))) c c' mm mm' n n' a : NoDup (map snd (flat_map snd own)) ->
  In (c, mm) own -> In (n, a) mm -> In (c', mm') own -> In (n', a) mm' -> c = c' /\ n = n'.
Proof.
  intros N O I O' I'.
  assert (X : (c, mm) = (c', mm')).
  { apply (same_block (fun o : string * list (string * nat) => map snd (snd o)) own _ _ a).
    - replace (flat_map (fun o => map snd (snd o)) own) with (map snd (flat_map snd own)); [exact N|]. clear. induction own as [|o own IH]; [reflexivity|]. cbn. rewrite map_app, IH. reflexivity.
    - exact O.
    - exact O'.
    - cbn. change a with (snd (n, a)). apply in_map. exact I.
    - cbn. change a with (snd (n', a)). apply in_map. exact I'. }
  injection X as -> ->. split; [reflexivity|].
  assert (NM : NoDup (map snd mm')).
  { clear -N O. induction own as [|o own IH]; [destruct O|]. cbn in N. rewrite map_app in N. destruct O as [->|O]; [apply nodup_app_l in N; exact N|apply IH; [apply nodup_app_r in N; exact N|exact O]]. }
  clear -NM I I'. induction mm' as [|[k b] mm IH]; [destruct I|]. cbn in NM. inversion NM as [|? ? X Y]; subst.
  destruct I as [E|I], I' as [E'|I'].
  - congruence.
  - injection E as -> ->. exfalso. apply X. change a with (snd (n', a)). apply in_map. exact I'.
  - injection E' as -> ->. exfalso. apply X. change a with (snd (n, a)). apply in_map. exact I.
  - exact (IH I I' Y).
Qed.

(** ---- every place holds a value *)
Definition same_maps (m m' : mem) : Prop := m_own_s m' = m_own_s m /\ m_own_c m' = m_own_c m /\ m_smap m' = m_smap m /\ m_cmap m' = m_cmap m.
Definition full_mem (m : mem) : Prop := forall x b, place m x = Some b -> exists v, value_ok v /\ cell (m_w m) b v.
Definition stored (x : access) : option value := match x with CompSetState _ _ v | CompSetCmd _ _ v | CtrlSetCmd _ v => Some v | _ => None end.
Definition at_place (m : mem) (a : nat) (x : access) : option value :=
  match place m x with Some b => if Nat.eqb b a then stored x else None | None => None end.
Lemma place_same m m' x : same_maps m m' -> place m' x = place m x.
Proof. intros (A & B & C & D). destruct x; cbn; congruence. Qed.
Lemma do_one m x : full_mem m -> access_ok x ->
  same_maps m (fst (do_access m x)) /\ full_mem (fst (do_access m x)) /\
  forall a v, cell (m_w m) a v -> value_ok v ->
    let v' := match at_place m a x with Some n => if dtype_eqb (type_of n) (type_of v) then n else v | None => v end in
    cell (m_w (fst (do_access m x))) a v' /\ value_ok v'.
Proof.
  intros F A. unfold do_access, at_place.
  assert (R : same_maps m m) by (repeat split).
  destruct (place m x) as [b|] eqn:P; [|split; [exact R|split; [exact F|intros a v C V; split; assumption]]].
  destruct (F x b P) as (v & V & C).
  assert (GET : forall T, on_handle x b = Get b T true -> stored x = None ->
    same_maps m (fst (match HandleModel.step (on_handle x b) (m_w m) with HandleModel.Ok (RVal (Some v0)) w => (with_w m w, Got v0) | HandleModel.Ok _ w => (with_w m w, Stored) | _ => (m, Refused) end)) /\
    full_mem (fst (match HandleModel.step (on_handle x b) (m_w m) with HandleModel.Ok (RVal (Some v0)) w => (with_w m w, Got v0) | HandleModel.Ok _ w => (with_w m w, Stored) | _ => (m, Refused) end)) /\
    forall a u, cell (m_w m) a u -> value_ok u ->
      let v' := match (if Nat.eqb b a then stored x else None) with Some n => if dtype_eqb (type_of n) (type_of u) then n else u | None => u end in
      cell (m_w (fst (match HandleModel.step (on_handle x b) (m_w m) with HandleModel.Ok (RVal (Some v0)) w => (with_w m w, Got v0) | HandleModel.Ok _ w => (with_w m w, Stored) | _ => (m, Refused) end))) a v' /\ value_ok v').
  { intros T -> ->. rewrite (cell_get _ _ _ T C V).
    assert (Z : forall a u, cell (m_w m) a u -> value_ok u -> let v' := match (if Nat.eqb b a then None else None) with Some n => if dtype_eqb (type_of n) (type_of u) then n else u | None => u end in cell (m_w m) a v' /\ value_ok v')
      by (intros a u H1 H2; destruct (Nat.eqb b a); split; assumption).
    destruct (seen v T); cbn [fst]; (split; [repeat split|split; [exact F|exact Z]]). }
  assert (SET : forall new, on_handle x b = Set_ b new true -> stored x = Some new -> value_ok new ->
    same_maps m (fst (match HandleModel.step (on_handle x b) (m_w m) with HandleModel.Ok (RVal (Some v0)) w => (with_w m w, Got v0) | HandleModel.Ok _ w => (with_w m w, Stored) | _ => (m, Refused) end)) /\
    full_mem (fst (match HandleModel.step (on_handle x b) (m_w m) with HandleModel.Ok (RVal (Some v0)) w => (with_w m w, Got v0) | HandleModel.Ok _ w => (with_w m w, Stored) | _ => (m, Refused) end)) /\
    forall a u, cell (m_w m) a u -> value_ok u ->
      let v' := match (if Nat.eqb b a then stored x else None) with Some n => if dtype_eqb (type_of n) (type_of u) then n else u | None => u end in
      cell (m_w (fst (match HandleModel.step (on_handle x b) (m_w m) with HandleModel.Ok (RVal (Some v0)) w => (with_w m w, Got v0) | HandleModel.Ok _ w => (with_w m w, Stored) | _ => (m, Refused) end))) a v' /\ value_ok v').
  { intros new -> -> NV. pose proof (cell_set _ _ _ new C V NV) as CS. destruct (dtype_eqb (type_of new) (type_of v)) eqn:TE.
    - destruct CS as (w' & -> & C1 & C2 & C3). cbn [fst].
      assert (Z : forall a u, cell (m_w m) a u -> value_ok u ->
         cell w' a (match (if Nat.eqb b a then Some new else None) with Some n => if dtype_eqb (type_of n) (type_of u) then n else u | None => u end) /\
         value_ok (match (if Nat.eqb b a then Some new else None) with Some n => if dtype_eqb (type_of n) (type_of u) then n else u | None => u end)).
      { intros a u H1 H2. destruct (Nat.eqb_spec b a) as [<-|NE].
        - assert (u = v) as -> by (unfold cell in *; congruence). rewrite TE. split; assumption.
        - split; [apply C2; [congruence|exact H1]|exact H2]. }
      split; [repeat split|]. split; [|exact Z]. intros y c Py. assert (Py' : place m y = Some c) by (rewrite <- Py; symmetry; apply place_same; repeat split).
      destruct (F y c Py') as (u & U & Cu). destruct (Z c u Cu U) as [Z1 Z2]. eexists. split; [exact Z2|exact Z1].
    - rewrite CS. cbn [fst]. split; [exact R|]. split; [exact F|]. intros a u H1 H2. destruct (Nat.eqb_spec b a) as [<-|NE]; cbv zeta; [|split; assumption].
      assert (u = v) as -> by (unfold cell in *; congruence). rewrite TE. split; assumption. }
  destruct x; cbn [access_ok] in A; cbn [on_handle stored] in *.
  - apply (SET v0); auto.
  - apply (GET T); reflexivity.
  - apply (SET v0); auto.
  - apply (GET T); reflexivity.
  - apply (GET T); reflexivity.
  - apply (GET T); reflexivity.
  - apply (SET v0); auto.
Qed.
Lemma same_trans m m' m'' : same_maps m m' -> same_maps m' m'' -> same_maps m m''.
Proof. intros (A & B & C & D) (A' & B' & C' & D'). repeat split; congruence. Qed.
Lemma do_many l : forall m, full_mem m -> Forall access_ok l ->
  same_maps m (do_all m l) /\ full_mem (do_all m l) /\
  forall a v, cell (m_w m) a v -> value_ok v -> cell (m_w (do_all m l)) a (latest (at_place m a) v l) /\ value_ok (latest (at_place m a) v l).
Proof.
  induction l as [|x l IH]; intros m F A.
  - split; [repeat split|]. split; [exact F|]. intros a v C V. split; assumption.
  - inversion A as [|? ? A1 A2]; subst. destruct (do_one m x F A1) as (S1 & F1 & K1). cbn [do_all fold_left].
    destruct (IH _ F1 A2) as (S2 & F2 & K2). split; [eapply same_trans; eassumption|]. split; [exact F2|].
    intros a v C V. destruct (K1 a v C V) as [C' V']. destruct (K2 a _ C' V') as [C2 V2].
    assert (L : latest (at_place m a) v (x :: l) = latest (at_place (fst (do_access m x)) a) (match at_place m a x with Some n => if dtype_eqb (type_of n) (type_of v) then n else v | None => v end) l).
    { unfold latest. cbn [fold_left]. generalize (match at_place m a x with Some n => if dtype_eqb (type_of n) (type_of v) then n else v | None => v end). clear -S1.
      intros v. revert v. induction l as [|y l IH]; intros v; [reflexivity|]. cbn [fold_left]. rewrite <- IH. unfold at_place. rewrite (place_same _ _ y S1). reflexivity. }
    rewrite L. split; assumption.
Qed.
Lemma latest_ext sel sel' v l : (forall x, sel x = sel' x) -> latest sel v l = latest sel' v l.
Proof. intros E. unfold latest. revert v. induction l as [|x l IH]; intros v; [reflexivity|]. cbn [fold_left]. rewrite E. apply IH. Qed.
