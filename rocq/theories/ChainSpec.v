(** ChainSpec.v -- specification vocabulary for controller chains, independent of the manager's
    data structures: who feeds whom, what a tree-like topology is, what "before" means. *)
From Coq Require Import Permutation.
From Verif Require Import Base Events RmModel CmModel.

(** [a] occurs before [b] in [l]. *)
Definition comes_before (a b : name) (l : list name) : Prop := exists l1 l2 l3, l = l1 ++ a :: l2 ++ b :: l3.

(** Controller [c] is configured and one of the command (state) interfaces it asks for belongs to
    the loaded controller [b], i.e. is named "b/...". *)
Definition commands (m : cm) (c : ctrl) (b : name) : Prop :=
  c_lc c <> Unconfigured /\ In b (map c_name (cm_ctrls m)) /\
  exists k, In k (cmd_names (cm_rm m) c) /\ prefix_of k = Some b.
Definition observes (m : cm) (c : ctrl) (b : name) : Prop :=
  c_lc c <> Unconfigured /\ In b (map c_name (cm_ctrls m)) /\
  exists k, In k (state_names (cm_rm m) c) /\ prefix_of k = Some b.

(** Data flows from [a] to [b] within a cycle: [a] writes references of [b], or [b] reads state
    interfaces exported by [a]. *)
Definition data_flow (m : cm) (a b : name) : Prop :=
  (exists c, In c (cm_ctrls m) /\ c_name c = a /\ commands m c b) \/
  (exists c, In c (cm_ctrls m) /\ c_name c = b /\ observes m c a).

Definition touching (R : name -> name -> Prop) (a b : name) : Prop := R a b \/ R b a.

(** connected through any number of chained interfaces, in either direction *)
Inductive linked (R : name -> name -> Prop) (a : name) : name -> Prop :=
| linked_refl : linked R a a
| linked_step b c : linked R a b -> touching R b c -> linked R a c.

(** a path all of whose members satisfy P *)
Inductive path_in (R : name -> name -> Prop) (P : name -> Prop) (a : name) : name -> Prop :=
| path_refl : P a -> path_in R P a a
| path_step b c : path_in R P a b -> touching R b c -> P c -> path_in R P a c.

(** The topology is a forest: no self loops, no two-cycles, and no two different neighbours of a
    controller are connected without passing through it. *)
Definition tree_like (R : name -> name -> Prop) : Prop :=
  (forall a, ~ R a a) /\ (forall a b, R a b -> ~ R b a) /\
  (forall c x y, touching R c x -> touching R c y -> path_in R (fun z => z <> c) x y -> x = y).
