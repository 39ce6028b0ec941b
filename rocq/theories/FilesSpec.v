(** FilesSpec.v -- which files and which values concern a controller, said without loops. *)
From Coq Require Import String List Bool.
From Verif Require Import FilesModel.
Import ListNotations.
Open Scope string_scope. Open Scope list_scope.

Definition has (y : yaml) (k : string) (v : yaml) : Prop := exists l, y = YMap l /\ entry l k = Some v.
Definition lacks (y : yaml) (k : string) : Prop := exists l, y = YMap l /\ entry l k = None.
(** the names under which a document may have something for the controller [n] in the name space [ns], in order *)
Definition key_names (ns n : string) : list string :=
  if String.eqb ns "/" then [n; ("/" ++ n)%string; ("/**/" ++ n)%string; ("/**/" ++ n)%string]
  else [n; (ns ++ "/" ++ n)%string; ("/**/" ++ n)%string; ("/**" ++ ns ++ "/" ++ n)%string].
(** the section of the document for a key: its own, else the one below the wildcard, else the wildcard itself *)
Definition section_for (doc : yaml) (k : string) (s : yaml) : Prop :=
  has doc k s \/
  (lacks doc k /\ exists w, has doc "/**" w /\ (has w k s \/ (lacks w k /\ s = w /\ exists r, has w "ros__parameters" r))).
(** the bare name of the controller is a key of the document although it is in a name space *)
Definition unscoped (ns n : string) (doc : yaml) : Prop := ns <> "/" /\ exists v, has doc n v.
(** the document concerns the controller *)
Definition concerns (ns n : string) (doc : yaml) : Prop :=
  ~ unscoped ns n doc /\ exists k s, In k (key_names ns n) /\ section_for doc k s.
(** a section gives a value for the parameter *)
Definition sets (s : yaml) (p : string) (v : yaml) : Prop := exists r, has s "ros__parameters" r /\ has r p v.
(** the document gives the value: its first section, in the order of the keys, that sets the parameter *)
Definition gives (ns n : string) (doc : yaml) (p : string) (v : yaml) : Prop :=
  ~ unscoped ns n doc /\ exists before k after s, key_names ns n = before ++ k :: after /\ section_for doc k s /\ sets s p v /\
    forall k' s' v', In k' before -> section_for doc k' s' -> ~ sets s' p v'.
