(** Base.v -- names, association lists and small list helpers shared by the models.
    Nothing here models a particular function except where a comment cites the code. *)
From Coq Require Export String List Bool Arith Lia.
Export ListNotations.
Open Scope list_scope.

(** Names of hardware components, controllers, groups and interfaces are strings, as in the code
    (std::string). *)
Definition name := string.

(** ros2_control::has_item, /repo/hardware_interface/include/hardware_interface/helpers.hpp:69-72 *)
Definition mem (x : name) (l : list name) : bool := existsb (String.eqb x) l.

(** ros2_control::add_item, helpers.hpp:79-86: append unless present. *)
Definition add_item (l : list name) (x : name) : list name := if mem x l then l else l ++ [x].

(** ros2_control::add_items, helpers.hpp:93-100. *)
Definition add_items (l xs : list name) : list name := fold_left add_item xs l.

(** std::find + erase of the first occurrence (helpers.hpp:109-119 remove_item and the many
    hand-written find/erase loops). *)
Fixpoint remove1 (x : name) (l : list name) : list name :=
  match l with
  | [] => []
  | y :: l' => if String.eqb x y then l' else y :: remove1 x l'
  end.

Definition remove_items (l xs : list name) : list name :=
  fold_left (fun acc x => remove1 x acc) xs l.

(** Association lists keyed by names stand for std::unordered_map / std::map.
    [aget] = find/at, [aset] = operator[] assignment (or emplace when absent), [adel] = erase. *)
Definition alist (A : Type) := list (name * A).

Fixpoint aget {A} (m : alist A) (k : name) : option A :=
  match m with
  | [] => None
  | (k', v) :: m' => if String.eqb k k' then Some v else aget m' k
  end.

Fixpoint aset {A} (m : alist A) (k : name) (v : A) : alist A :=
  match m with
  | [] => [(k, v)]
  | (k', v') :: m' => if String.eqb k k' then (k, v) :: m' else (k', v') :: aset m' k v
  end.

Fixpoint adel {A} (m : alist A) (k : name) : alist A :=
  match m with
  | [] => []
  | (k', v) :: m' => if String.eqb k k' then adel m' k else (k', v) :: adel m' k
  end.

(** ------------------------------------------------------------------ lemmas *)

Lemma mem_In x l : mem x l = true <-> In x l.
Proof.
  unfold mem. rewrite existsb_exists. split.
  - intros (y & Hy & E). apply String.eqb_eq in E. subst. exact Hy.
  - intros H. exists x. split; [exact H | apply String.eqb_refl].
Qed.

Lemma mem_false x l : mem x l = false <-> ~ In x l.
Proof.
  rewrite <- mem_In. destruct (mem x l); split; intro H; try congruence.
Qed.

Lemma In_add_item x y l : In x (add_item l y) <-> x = y \/ In x l.
Proof.
  unfold add_item. destruct (mem y l) eqn:E.
  - apply mem_In in E. split; [auto|]. intros [->|]; auto.
  - rewrite in_app_iff. simpl. split; [intros [|[|[]]]; auto | intros [|]; auto].
Qed.

Lemma In_add_items x l xs : In x (add_items l xs) <-> In x l \/ In x xs.
Proof.
  revert l; induction xs as [|y xs IH]; intros l; simpl.
  - unfold add_items; simpl. tauto.
  - unfold add_items in *. simpl. rewrite IH, In_add_item. intuition.
Qed.

Lemma NoDup_add_item l x : NoDup l -> NoDup (add_item l x).
Proof.
  intros H. unfold add_item. destruct (mem x l) eqn:E; [exact H|].
  apply mem_false in E.
  induction H as [|z l Hz Hl IH]; simpl.
  - constructor; [intros [] | constructor].
  - constructor.
    + rewrite in_app_iff. simpl. intros [H1|[H1|[]]]; [tauto|]. subst. apply E. left. reflexivity.
    + apply IH. intro H1. apply E. right. exact H1.
Qed.

Lemma NoDup_add_items l xs : NoDup l -> NoDup (add_items l xs).
Proof.
  revert l; induction xs as [|y xs IH]; intros l H; unfold add_items in *; simpl; [exact H|].
  apply IH. apply NoDup_add_item. exact H.
Qed.

Lemma In_remove1_sub x y l : In x (remove1 y l) -> In x l.
Proof.
  induction l as [|z l IH]; simpl; [tauto|]. destruct (String.eqb_spec y z); simpl; tauto.
Qed.

Lemma In_remove1_neq x y l : x <> y -> (In x (remove1 y l) <-> In x l).
Proof.
  intros Hxy. induction l as [|z l IH]; simpl; [tauto|].
  destruct (String.eqb_spec y z); simpl; [subst|]; intuition congruence.
Qed.

Lemma remove1_NoDup y l : NoDup l -> NoDup (remove1 y l) /\ ~ In y (remove1 y l).
Proof.
  induction 1 as [|z l Hz Hl [IH1 IH2]]; simpl.
  - split; [constructor|tauto].
  - destruct (String.eqb_spec y z) as [->|Hn].
    + split; assumption.
    + split.
      * constructor; [|exact IH1]. intro H. apply Hz. eapply In_remove1_sub; exact H.
      * simpl. intros [|]; [congruence|tauto].
Qed.

Lemma remove_items_spec xs l : NoDup l ->
  NoDup (remove_items l xs) /\ (forall x, In x (remove_items l xs) <-> In x l /\ ~ In x xs).
Proof.
  revert l; induction xs as [|y xs IH]; intros l H; unfold remove_items in *; simpl.
  - split; [exact H|]. tauto.
  - destruct (remove1_NoDup y l H) as [H1 H2].
    destruct (IH _ H1) as [IH1 IH2]. split; [exact IH1|].
    intro x. rewrite IH2.
    destruct (String.eqb_spec x y) as [->|Hn].
    + split; [tauto|]. intros [_ C]. exfalso. apply C. left. reflexivity.
    + rewrite In_remove1_neq by exact Hn. intuition congruence.
Qed.

Lemma aget_aset_same {A} (m : alist A) k v : aget (aset m k v) k = Some v.
Proof.
  induction m as [|[k' v'] m IH]; simpl.
  - rewrite String.eqb_refl. reflexivity.
  - destruct (String.eqb_spec k k') as [->|Hn]; simpl.
    + rewrite String.eqb_refl. reflexivity.
    + apply String.eqb_neq in Hn. rewrite Hn. exact IH.
Qed.

Lemma aget_aset_other {A} (m : alist A) k k' v : k' <> k -> aget (aset m k v) k' = aget m k'.
Proof.
  intros Hn. induction m as [|[k0 v0] m IH]; simpl.
  - apply String.eqb_neq in Hn. rewrite Hn. reflexivity.
  - destruct (String.eqb_spec k k0) as [->|H1]; simpl.
    + apply String.eqb_neq in Hn. rewrite Hn. reflexivity.
    + destruct (String.eqb_spec k' k0); [reflexivity|exact IH].
Qed.

Lemma aget_aset {A} (m : alist A) k k' v :
  aget (aset m k v) k' = if String.eqb k' k then Some v else aget m k'.
Proof.
  destruct (String.eqb_spec k' k) as [->|Hn].
  - apply aget_aset_same.
  - apply aget_aset_other. exact Hn.
Qed.

Lemma aget_adel {A} (m : alist A) k k' :
  aget (adel m k) k' = if String.eqb k' k then None else aget m k'.
Proof.
  induction m as [|[k0 v0] m IH]; simpl.
  - destruct (String.eqb k' k); reflexivity.
  - destruct (String.eqb_spec k k0) as [->|H1].
    + rewrite IH. destruct (String.eqb_spec k' k0); reflexivity.
    + simpl. rewrite IH. destruct (String.eqb_spec k' k0) as [->|H2].
      * destruct (String.eqb_spec k0 k); [congruence|reflexivity].
      * reflexivity.
Qed.
