(** ByNameProofs.v -- proofs about ByNameModel.v. *)
From Verif Require Import Base ByNameModel ByNameSpec.
Open Scope string_scope. Open Scope list_scope.

(** ---- strings *)
Lemma append_inj n : forall a b : string, (n ++ a)%string = (n ++ b)%string -> a = b.
Proof. induction n as [|c n IH]; intros a b H; [exact H|]. apply IH. injection H as H. exact H. Qed.
Lemma keys_differ n : type_key n <> fallback_key n /\ type_key n <> args_key n /\ fallback_key n <> args_key n /\
  type_key n <> files_key n /\ fallback_key n <> files_key n /\ args_key n <> files_key n.
Proof. repeat split; intros H; apply append_inj in H; discriminate H. Qed.
Lemma eqb_neq' a b : a <> b -> String.eqb a b = false.
Proof. intros H. destruct (String.eqb_spec a b); [contradiction|reflexivity]. Qed.

(** ---- parameters *)
Lemma declare_get ps k v k' : aget (declare ps k v) k' = match aget ps k' with Some x => Some x | None => if String.eqb k' k then Some v else None end.
Proof.
  unfold declare. destruct (aget ps k) eqn:E.
  - destruct (aget ps k') eqn:E'; [reflexivity|]. destruct (String.eqb_spec k' k) as [->|]; [congruence|reflexivity].
  - rewrite aget_aset. destruct (String.eqb_spec k' k) as [->|]; [rewrite E; reflexivity|]. destruct (aget ps k'); reflexivity.
Qed.
Lemma get_strs_says ps k l : get_strs ps k = Got l -> says ps k l.
Proof. unfold get_strs, says. destruct (aget ps k) as [[]|]; try discriminate. intros H. injection H as ->. left. reflexivity. Qed.
Lemma says_get ps k l : says ps k l -> match get_strs (declare ps k (PStrs [])) k with Got l' => l' | _ => [] end = l /\ get_strs (declare ps k (PStrs [])) k <> Raises.
Proof.
  unfold says, unset, get_strs. rewrite declare_get, String.eqb_refl. intros [->|[[->| ->] ->]]; split; congruence.
Qed.
Lemma get_says ps k : get_strs (declare ps k (PStrs [])) k <> Raises -> says ps k (match get_strs (declare ps k (PStrs [])) k with Got l' => l' | _ => [] end).
Proof.
  unfold get_strs, says, unset. rewrite declare_get, String.eqb_refl. destruct (aget ps k) as [[]|]; intros H; auto; congruence.
Qed.
Lemma get_other ps k k' v : k' <> k -> get_strs (declare ps k v) k' = get_strs ps k'.
Proof. intros N. unfold get_strs. rewrite declare_get. rewrite (eqb_neq' _ _ N). destruct (aget ps k'); reflexivity. Qed.

(** ---- one load, read off *)
Definition after_type (w : world) n := with_params w (declare (w_params w) (type_key n) PUnset).
Definition files_of (ps : alist pval) n := match aget ps (files_key n) with Some (PStrs l) => l | Some (PStr s) => [s] | _ => [] end.
Lemma files_of_said ps n : files_said ps n (files_of ps n).
Proof. unfold files_said, files_of, files_key. destruct (aget ps _) as [[]|]; reflexivity. Qed.

Lemma create_params o w t w1 b : create o w t = (w1, b) -> w_params w1 = w_params w /\ w_ctrls w1 = w_ctrls w.
Proof.
  unfold create. destruct (o_plain o t).
  - destruct (o_create o (w_log w) false t); cbn [negb].
    + destruct (o_chain o t); intros H; injection H as <- <-; split; reflexivity.
    + intros H; injection H as <- <-; split; reflexivity.
  - cbn [negb]. destruct (o_chain o t); intros H; injection H as <- <-; split; reflexivity.
Qed.
Lemma create_true o w t w1 : (o_plain o t = true \/ o_chain o t = true) -> create o w t = (w1, true) -> created o w t /\ w_log w1 = creation o t ++ w_log w.
Proof.
  unfold create, created, creation. intros A. destruct (o_plain o t) eqn:P.
  - destruct (o_create o (w_log w) false t) eqn:C; cbn [negb]; [|discriminate]. destruct (o_chain o t) eqn:Q; intros H; injection H as <-.
    + intros. split; [repeat split; auto|reflexivity].
    + split; [repeat split; auto; discriminate|reflexivity].
  - cbn [negb]. destruct (o_chain o t) eqn:Q.
    + intros H; injection H as <- E. split; [repeat split; auto; discriminate|reflexivity].
    + destruct A; discriminate.
Qed.
Lemma created_create o w t : created o w t -> exists w1, create o w t = (w1, true).
Proof.
  unfold created, create. intros (A & P & C). destruct (o_plain o t) eqn:EP.
  - rewrite (P eq_refl). cbn [negb]. destruct (o_chain o t) eqn:EC; [|eexists; reflexivity]. cbn [w_log say]. rewrite (C eq_refl). eexists; reflexivity.
  - cbn [negb]. destruct (o_chain o t) eqn:EC; [|destruct A; discriminate]. rewrite (C eq_refl). eexists; reflexivity.
Qed.
Lemma existsb_loaded w n : existsb (fun d => String.eqb (i_name d) n) (w_ctrls w) = true <-> loaded w n.
Proof.
  unfold loaded. rewrite existsb_exists, in_map_iff. split.
  - intros (d & H & E). apply String.eqb_eq in E. exists d. auto.
  - intros (d & E & H). exists d. split; [exact H|]. apply String.eqb_eq. exact E.
Qed.

Lemma defaults_refl n ps : defaults_added n ps ps. Proof. intros k. left. reflexivity. Qed.
Lemma defaults_type n ps : defaults_added n ps (declare ps (type_key n) PUnset).
Proof.
  intros k. rewrite declare_get. destruct (aget ps k) eqn:E; [left; reflexivity|]. destruct (String.eqb_spec k (type_key n)) as [->|]; [|left; reflexivity].
  right. split; [reflexivity|]. left. split; reflexivity.
Qed.
Lemma defaults_more n k ps0 ps : defaults_added n ps0 ps -> k = fallback_key n \/ k = args_key n -> defaults_added n ps0 (declare ps k (PStrs [])).
Proof.
  intros D K k'. rewrite declare_get. specialize (D k'). destruct (aget ps k') eqn:E; [exact D|].
  destruct (String.eqb_spec k' k) as [->|].
  - destruct D as [D|[_ [[_ D]|[_ D]]]]; try discriminate D. right. split; [congruence|]. right. split; [exact K|reflexivity].
  - exact D.
Qed.

(** what [load_typed] does, in one statement *)
Inductive outcome (o : outside) (w : world) (n : name) (t : string) : world * answer -> Prop :=
| out_null w' : w_ctrls w' = w_ctrls w -> defaults_added n (w_params w) (w_params w') ->
    (forall c, described (w_params w) n c -> i_type c = t -> created o w t -> ~ In n (i_fallback c) -> ~ loaded w n ->
       o_init o (creation o t ++ w_log w) n (node_args o c) = IOk -> False) -> outcome o w n t (w', Null)
| out_throw w' : w_ctrls w' = w_ctrls w -> defaults_added n (w_params w) (w_params w') ->
    ~ ((exists l, says (w_params w) (fallback_key n) l) /\ (exists l, says (w_params w) (args_key n) l)) -> outcome o w n t (w', Throws)
| out_ok w' c : w_ctrls w' = w_ctrls w ++ [c] -> defaults_added n (w_params w) (w_params w') ->
    i_type c = t -> i_name c = n -> files_said (w_params w) n (i_files c) -> says (w_params w) (fallback_key n) (i_fallback c) ->
    says (w_params w) (args_key n) (i_args c) -> created o w t -> ~ In n (i_fallback c) -> ~ loaded w n ->
    o_init o (creation o t ++ w_log w) n (node_args o c) = IOk ->
    w_log w' = UInit n (node_args o c) :: creation o t ++ w_log w -> outcome o w n t (w', Loaded).

Lemma says_fun ps k l l' : says ps k l -> says ps k l' -> l = l'.
Proof. unfold says, unset. intros [A|[[A|A] A']] [B|[[B|B] B']]; congruence. Qed.
Lemma said_fun ps n l l' : files_said ps n l -> files_said ps n l' -> l = l'.
Proof. unfold files_said. destruct (aget ps _) as [[]|]; congruence. Qed.

Lemma load_typed_outcome o w n t : outcome o w n t (load_typed o w n t).
Proof.
  destruct (keys_differ n) as (D1 & D2 & D3 & D4 & D5 & D6). unfold load_typed.
  destruct (negb (o_plain o t) && negb (o_chain o t)) eqn:AV.
  { apply out_null; [reflexivity|apply defaults_refl|]. intros c _ _ (A & _) _ _ _. apply andb_prop in AV. destruct AV as [A1 A2].
    apply negb_true_iff in A1, A2. destruct A; congruence. }
  assert (AV' : o_plain o t = true \/ o_chain o t = true) by (destruct (o_plain o t), (o_chain o t); auto; discriminate).
  destruct (create o w t) as [w1 b] eqn:CR. pose proof (create_params _ _ _ _ _ CR) as [P1 P2]. destruct b; cbn [negb].
  2:{ apply out_null; [exact P2|rewrite P1; apply defaults_refl|]. intros c _ _ C _ _ _. apply created_create in C. destruct C as [w' C]. congruence. }
  destruct (create_true _ _ _ _ AV' CR) as [CC CL]. cbv zeta. rewrite P1. fold (files_of (w_params w) n). cbn [with_params w_params w_ctrls w_log].
  set (p2 := declare (w_params w) (fallback_key n) (PStrs [])).
  assert (DF : defaults_added n (w_params w) p2) by (apply defaults_more; [apply defaults_refl|left; reflexivity]).
  destruct (get_strs p2 (fallback_key n)) as [|l|] eqn:G.
  3:{ apply out_throw; [exact P2|exact DF|]. intros [[l H] _]. apply says_get in H. fold p2 in H. destruct H as [_ H]. apply H. exact G. }
  1,2: assert (NR : get_strs p2 (fallback_key n) <> Raises) by congruence; pose proof (get_says _ _ NR) as SF; fold p2 in SF; rewrite G in SF; cbv iota in SF.
  1: pose (fb := [] : list string).
  2: pose (fb := l).
  all: change (says (w_params w) (fallback_key n) fb) in SF; match goal with |- context [mem ?y ?x] => change (mem y x) with (mem y fb) end.
  all: (destruct (mem n fb) eqn:MF;
    [apply out_null; [exact P2|exact DF|]; intros c (_ & _ & _ & H & _) _ _ NI _ _; rewrite (says_fun _ _ _ _ H SF) in NI; apply NI; apply mem_In; exact MF|]).
  all: set (p3 := declare p2 (args_key n) (PStrs [])).
  all: assert (DA : defaults_added n (w_params w) p3) by (apply defaults_more; [exact DF|right; reflexivity]).
  all: assert (GA : get_strs p3 (args_key n) = get_strs (declare (w_params w) (args_key n) (PStrs [])) (args_key n))
    by (unfold p3, p2, get_strs; rewrite !declare_get, (eqb_neq' _ _ (not_eq_sym D3)), String.eqb_refl; destruct (aget (w_params w) (args_key n)); reflexivity).
  all: match goal with |- context [get_strs ?x (args_key ?y)] => change (get_strs x (args_key y)) with (get_strs p3 (args_key y)) end.
  all: rewrite GA.
  all: destruct (get_strs (declare (w_params w) (args_key n) (PStrs [])) (args_key n)) as [|la|] eqn:G2;
    [| |apply out_throw; [exact P2|exact DA|]; intros [_ [l' H]]; apply says_get in H; destruct H as [_ H]; apply H; exact G2].
  all: assert (NR2 : get_strs (declare (w_params w) (args_key n) (PStrs [])) (args_key n) <> Raises) by congruence;
       pose proof (get_says _ _ NR2) as SA; rewrite G2 in SA; cbv iota in SA.
  1,3: pose (aa := [] : list string).
  3,4: pose (aa := la).
  all: change (says (w_params w) (args_key n) aa) in SA.
  all: pose (c := {| i_name := n; i_type := t; i_files := files_of (w_params w) n; i_fallback := fb; i_args := aa |});
    assert (FN : ~ In n fb) by (intros X; apply mem_In in X; congruence);
    assert (UN : forall c', described (w_params w) n c' -> i_type c' = t -> c' = c)
     by (intros c' (U1 & U2 & U3 & U4 & U5) U6; destruct c'; cbn in *; subst; unfold c; f_equal;
         [exact (said_fun _ _ _ _ U3 (files_of_said _ _))|exact (says_fun _ _ _ _ U4 SF)|exact (says_fun _ _ _ _ U5 SA)]);
    match goal with |- context [add_controller ?oo ?W ?x] => change (add_controller oo W x) with (add_controller oo W c) end;
    unfold add_controller; cbn [i_name w_ctrls w_params w_log say with_params]; change (i_name c) with n; rewrite P2, CL;
    (destruct (existsb (fun d => String.eqb (i_name d) n) (w_ctrls w)) eqn:EX;
      [apply out_null; [exact P2|exact DA|]; intros c' _ _ _ _ NL _; apply NL; apply existsb_loaded; exact EX|]);
    (destruct (o_init o (creation o t ++ w_log w) n (node_args o c)) eqn:EI;
      [eapply (out_ok _ _ _ _ _ c); cbn [w_ctrls w_params w_log]; try reflexivity; try assumption; [apply files_of_said|intros X; apply existsb_loaded in X; congruence]
      |apply out_null; [exact P2|exact DA|]; intros c' H1 H2 _ _ _ H3; rewrite (UN c' H1 H2) in H3; congruence
      |apply out_null; [exact P2|exact DA|]; intros c' H1 H2 _ _ _ H3; rewrite (UN c' H1 H2) in H3; congruence]).
Qed.
