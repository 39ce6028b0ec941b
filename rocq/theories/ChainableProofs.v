(** ChainableProofs.v *)
From Coq Require Import Arith Lia.
From Verif Require Import Base Events ChainableModel ChainableSpec.
Open Scope string_scope. Open Scope nat_scope. Open Scope list_scope.

Lemma begins_with_spec n p : begins_with n p = true <-> exists rest, p = (n ++ rest)%string.
Proof.
  unfold begins_with. revert p. induction n as [|a n IH]; intro p; cbn [String.prefix append].
  - split; [intros _; now exists p|]. destruct p; reflexivity.
  - destruct p as [|b p].
    + split; [discriminate|intros [r H]; discriminate].
    + assert (E : String.prefix (String a n) (String b p) =
                  if Ascii.ascii_dec a b then String.prefix n p else false) by reflexivity.
      rewrite E. destruct (Ascii.ascii_dec a b) as [->|N].
      * rewrite IH. split; intros [r H]; exists r; [now rewrite H|now inversion H].
      * split; [discriminate|intros [r H]; inversion H; congruence].
Qed.

Lemma add_item_new l x : ~ In x l -> add_item l x = l ++ [x].
Proof.
  intro H. unfold add_item. destruct (mem x l) eqn:M; [|reflexivity].
  apply mem_In in M. contradiction.
Qed.

Lemma loop_done n hs : forall mp od,
  (forall h, In h hs -> exists rest, hd_prefix h = (n ++ rest)%string) ->
  NoDup (mp ++ map hd_name hs) ->
  export_loop n hs mp od mp = EDone (mp ++ map hd_name hs) (od ++ hs) (mp ++ map hd_name hs).
Proof.
  induction hs as [|h hs IH]; cbn [export_loop map]; intros mp od HP ND.
  - now rewrite !app_nil_r.
  - assert (B : begins_with n (hd_prefix h) = true) by (apply begins_with_spec, HP; now left).
    rewrite B. cbn [negb].
    assert (NI : ~ In (hd_name h) mp).
    { apply NoDup_remove_2 in ND. intro Hin. apply ND, in_app_iff. now left. }
    destruct (mem (hd_name h) mp) eqn:M; [apply mem_In in M; contradiction|].
    rewrite (add_item_new _ _ NI), IH.
    + now rewrite <- !app_assoc.
    + intros h' Hh. apply HP. now right.
    + rewrite <- app_assoc. exact ND.
Qed.

Lemma loop_only n hs : forall mp od rs' od' mp', NoDup mp ->
  export_loop n hs mp od mp = EDone rs' od' mp' ->
  (forall h, In h hs -> exists rest, hd_prefix h = (n ++ rest)%string) /\ NoDup (mp ++ map hd_name hs).
Proof.
  induction hs as [|h hs IH]; cbn [export_loop map]; intros mp od rs' od' mp' ND H.
  - split; [intros h []|now rewrite app_nil_r].
  - destruct (begins_with n (hd_prefix h)) eqn:B; [|discriminate]. cbn [negb] in H.
    destruct (mem (hd_name h) mp) eqn:M; [discriminate|].
    assert (NI : ~ In (hd_name h) mp) by (intro X; apply mem_In in X; congruence).
    rewrite (add_item_new _ _ NI) in H.
    assert (ND' : NoDup (mp ++ [hd_name h])).
    { apply (NoDup_Add (a := hd_name h) (l := mp)); [|auto].
      rewrite <- (app_nil_r mp) at 1. apply Add_app. }
    destruct (IH _ _ _ _ _ ND' H) as [P N]. split.
    + intros h' [<-|Hin]; [now apply begins_with_spec|auto].
    + rewrite <- app_assoc in N. exact N.
Qed.

Theorem refs_exported c sz old new r : snd (ch_export_refs c sz old new) = Some r <->
  sz = length old /\ exportable (c_name c) (old ++ new) /\ r = old ++ new.
Proof.
  unfold ch_export_refs. destruct (Nat.eqb_spec sz (length old)) as [E|N]; cbn [negb].
  2:{ cbn. split; [discriminate|intros (H & _); contradiction]. }
  destruct (export_loop (c_name c) (old ++ new) [] [] []) as [rs od mp|rs od mp|od mp] eqn:L.
  - destruct (loop_only _ _ [] [] _ _ _ (NoDup_nil _) L) as [P ND]. cbn [app] in ND.
    rewrite (loop_done _ _ [] [] P ND) in L. cbn [app] in L. inversion L; subst rs od mp.
    rewrite map_length, app_length, Nat.eqb_refl. cbn [snd].
    split; [intro H; inversion H; repeat split; auto|intros (_ & _ & ->); reflexivity].
  - cbn [snd]. split; [discriminate|]. intros (_ & [P ND] & _).
    rewrite (loop_done _ _ [] [] P ND) in L. discriminate.
  - cbn [snd]. split; [discriminate|]. intros (_ & [P ND] & _).
    rewrite (loop_done _ _ [] [] P ND) in L. discriminate.
Qed.

Theorem states_exported c old new r : snd (ch_export_states c old new) = Some r <->
  exportable (c_name c) (old ++ new) /\ r = old ++ new.
Proof.
  unfold ch_export_states.
  destruct (export_loop (c_name c) (old ++ new) [] [] []) as [rs od mp|rs od mp|od mp] eqn:L.
  - destruct (loop_only _ _ [] [] _ _ _ (NoDup_nil _) L) as [P ND]. cbn [app] in ND.
    rewrite (loop_done _ _ [] [] P ND) in L. cbn [app] in L. inversion L; subst rs od mp.
    rewrite map_length, app_length, Nat.eqb_refl. cbn [snd].
    split; [intro H; inversion H; repeat split; auto|intros (_ & ->); reflexivity].
  - cbn [snd]. split; [discriminate|]. intros ([P ND] & _).
    rewrite (loop_done _ _ [] [] P ND) in L. discriminate.
  - cbn [snd]. split; [discriminate|]. intros ([P ND] & _).
    rewrite (loop_done _ _ [] [] P ND) in L. discriminate.
Qed.

Theorem exported_kept c sz rold rnew r sold snew q :
  (snd (ch_export_refs c sz rold rnew) = Some r ->
   let c' := fst (ch_export_refs c sz rold rnew) in
   c_ordered c' = r /\ c_refs c' = map hd_name r /\ c_map c' = map hd_name r /\ c_size c' = length rold /\
   c_exps c' = c_exps c /\ c_sordered c' = c_sordered c /\
   c_chained c' = c_chained c /\ c_state c' = c_state c /\ c_name c' = c_name c) /\
  (snd (ch_export_states c sold snew) = Some q ->
   let c' := fst (ch_export_states c sold snew) in
   c_sordered c' = q /\ c_exps c' = map hd_name q /\ c_smap c' = map hd_name q /\
   c_refs c' = c_refs c /\ c_ordered c' = c_ordered c /\ c_size c' = c_size c /\
   c_chained c' = c_chained c /\ c_state c' = c_state c /\ c_name c' = c_name c).
Proof.
  split; intro H.
  - apply refs_exported in H. destruct H as (-> & [P ND] & ->). unfold ch_export_refs.
    rewrite Nat.eqb_refl. cbn [negb]. rewrite (loop_done _ _ [] [] P ND). repeat split.
  - apply states_exported in H. destruct H as ([P ND] & ->). unfold ch_export_states.
    rewrite (loop_done _ _ [] [] P ND). repeat split.
Qed.

Lemma step_name c o : c_name (chstep c o) = c_name c.
Proof.
  destruct o; cbn; try reflexivity.
  - unfold ch_set_mode. destruct (c_state c), ans; reflexivity.
  - unfold ch_export_refs. destruct (negb _); [reflexivity|].
    destruct (export_loop _ _ _ _ _); reflexivity.
  - unfold ch_export_states. destruct (export_loop _ _ _ _ _); reflexivity.
Qed.

Lemma run_name os : forall c, c_name (chrun c os) = c_name c.
Proof.
  induction os as [|o os IH]; intro c; [reflexivity|].
  change (chrun c (o :: os)) with (chrun (chstep c o) os). rewrite IH. apply step_name.
Qed.

Theorem reexport n os1 os2 sz rold rnew sold snew :
  snd (ch_export_refs (chrun (constructed n) os1) sz rold rnew) =
  snd (ch_export_refs (chrun (constructed n) os2) sz rold rnew) /\
  snd (ch_export_states (chrun (constructed n) os1) sold snew) =
  snd (ch_export_states (chrun (constructed n) os2) sold snew).
Proof.
  unfold ch_export_refs, ch_export_states. rewrite !run_name. split.
  - destruct (negb _); [reflexivity|]. destruct (export_loop _ _ _ _ _); reflexivity.
  - destruct (export_loop _ _ _ _ _); reflexivity.
Qed.

Lemma mode_from os : forall c, c_chained (chrun c os) = agreed (c_state c) (c_chained c) os.
Proof.
  induction os as [|o os IH]; intro c; [reflexivity|].
  change (chrun c (o :: os)) with (chrun (chstep c o) os). rewrite IH.
  destruct o; cbn [agreed chstep]; try reflexivity.
  - unfold ch_set_mode. destruct (c_state c) eqn:E, ans; cbn [fst set_mode c_state c_chained];
      rewrite ?E; reflexivity.
  - unfold ch_export_refs. destruct (negb _); [reflexivity|].
    destruct (export_loop _ _ _ _ _); reflexivity.
  - unfold ch_export_states. destruct (export_loop _ _ _ _ _); reflexivity.
Qed.

Theorem mode_is n os : c_chained (chrun (constructed n) os) = agreed Unconfigured false os.
Proof. exact (mode_from os (constructed n)). Qed.

Theorem set_mode_answer c b ans c' r calls : ch_set_mode c b ans = (c', r, calls) ->
  (r = true <-> c_state c <> Active /\ ans = true) /\
  (calls = if (match c_state c with Active => true | _ => false end) then [] else [UMode b]) /\
  (r = false -> c' = c) /\ (r = true -> c' = set_mode c b).
Proof.
  unfold ch_set_mode. intro H.
  destruct (c_state c) eqn:E, ans; inversion H; subst; repeat split; try congruence; intuition congruence.
Qed.

Theorem update_calls c r1 r2 :
  (c_chained c = true -> ch_update c r1 r2 = (r2, [UWrite])) /\
  (c_chained c = false -> r1 = ROk -> ch_update c r1 r2 = (r2, [URefs; UWrite])) /\
  (c_chained c = false -> r1 <> ROk -> ch_update c r1 r2 = (r1, [URefs])).
Proof.
  unfold ch_update. destruct (c_chained c); repeat split; try discriminate.
  - intros _ ->. reflexivity.
  - intros _ H. destruct r1; [contradiction| |]; reflexivity.
Qed.

Theorem default_exports_nothing c sz hs : default_refs c [] = (sz, hs) ->
  snd (ch_export_refs c sz hs []) = Some [].
Proof. intro H. inversion H; subst. apply refs_exported. repeat split; try constructor. intros h []. Qed.
