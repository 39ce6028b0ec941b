(** Props_Files.v -- C84: the parameter files given to the spawner. *)
From Coq Require Import String List Bool.
From Verif Require Import FilesModel FilesSpec FilesProofs.
Import ListNotations.
Open Scope string_scope. Open Scope list_scope.

(** The files handed to the controller are those of the command line that concern it, each once and in the given order. *)
Theorem c84_files_listed : forall read ns n files out, select read ns n files [] = Some out ->
  NoDup out /\
  (forall f, In f out <-> In f files /\ exists doc, read f = Some doc /\ concerns ns n doc) /\
  (NoDup files -> exists keep, out = filter keep files /\
     forall f, In f files -> (keep f = true <-> exists doc, read f = Some doc /\ concerns ns n doc)).
Proof.
  intros read ns n files out H. destruct (select_ok ns n read files [] out H (NoDup_nil _)) as (new & -> & N & P & Q). split; [exact N|]. split; [|exact Q].
  intros f. cbn [app]. rewrite P. split; [intros (A & B & _); auto|]. intros (A & B). split; [exact A|]. split; [exact B|intros []].
Qed.
Print Assumptions c84_files_listed.

(** A parameter (type, fallback_controllers) gets the value of the first file that gives one ... *)
Theorem c84_value_of_the_first_file : forall read ns n p files v, get_param read ns n p files = Some (Some v) ->
  exists before f after doc, files = before ++ f :: after /\ read f = Some doc /\ gives ns n doc p v /\
    forall g, In g before -> exists d, read g = Some d /\ forall v', ~ gives ns n d p v'.
Proof. intros read ns n p files v H. exact (get_ok ns n read p files (Some v) H). Qed.
Print Assumptions c84_value_of_the_first_file.
(** ... and none only if no file gives one. *)
Theorem c84_no_value : forall read ns n p files, get_param read ns n p files = Some None ->
  forall f, In f files -> exists doc, read f = Some doc /\ forall v, ~ gives ns n doc p v.
Proof. intros read ns n p files H. exact (get_ok ns n read p files None H). Qed.
Print Assumptions c84_no_value.

(** Without a name space the controller's own section decides before every wildcard. *)
Theorem c84_own_section_decides : forall n doc s p v, has doc n s -> sets s p v -> gives "/" n doc p v.
Proof.
  intros n doc s p v H S. split; [intros (X & _); apply X; reflexivity|]. exists [], n, (tl (key_names "/" n)), s. split; [reflexivity|].
  split; [left; exact H|]. split; [exact S|]. intros k' s' v' [].
Qed.
Print Assumptions c84_own_section_decides.

(** Files that are what a parameter file should be never make it raise. *)
Definition parameters (s : yaml) : Prop := exists r l, has s "ros__parameters" r /\ r = YMap l.
Definition proper (ns n : string) (doc : yaml) : Prop :=
  (exists l, doc = YMap l) /\ (forall w, has doc "/**" w -> exists l, w = YMap l) /\ forall k s, In k (key_names ns n) -> section_for doc k s -> parameters s.
Lemma proper_find ns n doc k : proper ns n doc -> exists x, find_section ns n doc k = Some x.
Proof.
  intros ((l & ->) & W & _). unfold find_section. cbn [look]. destruct (entry l k) as [s|]; [destruct (_ && _)%bool; eauto|].
  destruct (entry l wildcard) as [w|] eqn:E; [|eauto]. destruct (W w) as (l' & ->); [exists l; auto|]. cbn [look]. destruct (entry l' k); [eauto|]. destruct (entry l' ros_params); eauto.
Qed.
Lemma proper_param s p : parameters s -> exists x, param_of s p = Some x.
Proof. intros (r & l & H & ->). unfold param_of. destruct (truthy s); [|eauto]. apply look_has in H. change (look s ros_params = Some (Some (YMap l))) in H. rewrite H. cbn. eauto. Qed.
Theorem c84_proper_files_never_raise : forall read ns n p files, (forall f, In f files -> exists doc, read f = Some doc /\ proper ns n doc) ->
  (exists out, select read ns n files [] = Some out) /\ (exists r, get_param read ns n p files = Some r).
Proof.
  intros read ns n p files. split.
  - generalize (@nil string). induction files as [|f files IH]; intros got; cbn [select]; [eauto|].
    assert (Hf : forall g, In g files -> exists doc, read g = Some doc /\ proper ns n doc) by (intros g I; apply H; right; exact I).
    destruct (existsb _ _); [exact (IH Hf got)|]. destruct (H f (or_introl eq_refl)) as (doc & -> & P).
    assert (U : exists b, uses ns n doc (keys ns n) = Some b).
    { generalize (keys ns n). induction l as [|k l IHl]; cbn [uses]; [eauto|]. destruct (proper_find ns n doc k P) as ([| |s] & ->); eauto. }
    destruct U as ([|] & ->); apply (IH Hf).
  - induction files as [|f files IH]; cbn [get_param]; [eauto|].
    assert (Hf : forall g, In g files -> exists doc, read g = Some doc /\ proper ns n doc) by (intros g I; apply H; right; exact I).
    destruct (H f (or_introl eq_refl)) as (doc & -> & P).
    assert (U : forall ks cand, incl ks (key_names ns n) -> (exists x, param_of cand p = Some x) -> exists c, scan ns n doc p ks cand = Some c /\ exists x, param_of c p = Some x).
    { induction ks as [|k ks IHk]; intros cand I C; cbn [scan]; [eauto|]. assert (I' : incl ks (key_names ns n)) by (intros z Hz; apply I; right; exact Hz).
      destruct (proper_find ns n doc k P) as (x & F). rewrite F. apply find_some in F. destruct x as [| |s].
      - destruct C as (x & C). rewrite C. destruct x; [eexists; split; [reflexivity|eauto]|]. apply IHk; [exact I'|eauto].
      - eexists. split; [reflexivity|exact C].
      - destruct (proper_param s p (proj2 (proj2 P) k s (I k (or_introl eq_refl)) F)) as (x & E). rewrite E. destruct x; [eexists; split; [reflexivity|eauto]|]. apply IHk; [exact I'|eauto]. }
    destruct (U (keys ns n) YNull) as (c & -> & x & ->); [rewrite keys_names; apply incl_refl|eexists; reflexivity|]. destruct x; [eauto|]. exact (IH Hf).
Qed.
Print Assumptions c84_proper_files_never_raise.

(** Concrete files *)
Definition with_type (t : string) : yaml := YMap [(ros_params, YMap [("type", YScalar t)])].
Definition f_root : yaml := YMap [("arm", with_type "A")].
Definition f_ns : yaml := YMap [("/left/arm", with_type "B")].
Definition f_wild : yaml := YMap [(wildcard, with_type "W"); ("/left/arm", with_type "B")].
Definition f_both : yaml := YMap [("arm", with_type "A"); ("/left/arm", with_type "B")].
Definition f_else : yaml := YMap [("leg", with_type "L")].
Definition disk (f : string) : option yaml :=
  match find (fun x => String.eqb (fst x) f) [("root", f_root); ("ns", f_ns); ("wild", f_wild); ("both", f_both); ("else", f_else)] with Some (_, d) => Some d | None => None end.
Example c84_example :
  select disk "/left" "arm" ["root"; "else"; "ns"; "wild"; "ns"] [] = Some ["ns"; "wild"] /\
  get_param disk "/left" "arm" "type" ["ns"; "wild"] = Some (Some (YScalar "B")) /\
  get_param disk "/" "arm" "type" ["else"; "root"] = Some (Some (YScalar "A")) /\
  get_param disk "/" "arm" "type" ["else"] = Some None /\
  select disk "/" "arm" ["missing"] [] = None.
Proof. vm_compute. auto. Qed.
Example c84_proper_example : proper "/left" "arm" f_wild.
Proof.
  split; [eexists; reflexivity|]. split.
  - intros w (l & E & H). injection E as <-. injection H as <-. eexists. reflexivity.
  - assert (Q : forall t, parameters (with_type t)) by (intros t; eexists; eexists; split; [eexists; split; reflexivity|reflexivity]).
    intros k s I S. cbn in I. destruct I as [<-|[<-|[<-|[<-|[]]]]];
    destruct S as [(l & E & H)|(_ & w & (l & E & H) & [(l' & E' & H')|(_ & -> & _)])]; injection E as <-; vm_compute in H; try discriminate; injection H as <-;
    first [apply Q | injection E' as <-; vm_compute in H'; discriminate].
Qed.

(** "In a file, the section of the controller wins over the one for all nodes" is false in a name space: the wildcard is found
    before the name with its name space is looked up. *)
Theorem c84_specific_section_refuted : has f_wild "/left/arm" (with_type "B") /\ sets (with_type "B") "type" (YScalar "B") /\
  get_param disk "/left" "arm" "type" ["wild"] = Some (Some (YScalar "W")).
Proof. split; [eexists; split; reflexivity|]. split; [eexists; split; eexists; split; reflexivity|vm_compute; reflexivity]. Qed.
Print Assumptions c84_specific_section_refuted.
(** "A later file overrides an earlier one", as with --params-file, is false for these parameters. *)
Theorem c84_later_file_refuted : gives "/" "arm" (YMap [("arm", with_type "C")]) "type" (YScalar "C") /\
  get_param (fun f => if String.eqb f "base" then Some f_root else Some (YMap [("arm", with_type "C")])) "/" "arm" "type" ["base"; "override"] = Some (Some (YScalar "A")).
Proof. split; [apply (c84_own_section_decides "arm" _ (with_type "C")); [eexists; split; reflexivity|eexists; split; eexists; split; reflexivity]|vm_compute; reflexivity]. Qed.
Print Assumptions c84_later_file_refuted.
(** "A file with a section for the controller in its name space concerns it" is false: not if it also has one for the bare name. *)
Theorem c84_scoped_section_refuted : has f_both "/left/arm" (with_type "B") /\ select disk "/left" "arm" ["both"] [] = Some [].
Proof. split; [eexists; split; reflexivity|vm_compute; reflexivity]. Qed.
Print Assumptions c84_scoped_section_refuted.
