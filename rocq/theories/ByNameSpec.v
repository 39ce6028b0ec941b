(** ByNameSpec.v -- what loading a controller by name should do, and how ROS reads the arguments of a node. *)
From Verif Require Import Base ByNameModel.
Open Scope string_scope. Open Scope list_scope.

(** the parameter [k] is not set *)
Definition unset (ps : alist pval) (k : name) : Prop := aget ps k = None \/ aget ps k = Some PUnset.
(** the parameter [k] is the list [l], the empty list if it is not set *)
Definition says (ps : alist pval) (k : name) (l : list string) : Prop := aget ps k = Some (PStrs l) \/ unset ps k /\ l = [].
(** the parameter files: one or several; anything else counts as none *)
Definition files_said (ps : alist pval) (n : name) (l : list string) : Prop :=
  match aget ps (n ++ ".params_file")%string with Some (PStrs l') => l = l' | Some (PStr s) => l = [s] | _ => l = [] end.
(** what the parameters say about controller [n] *)
Definition described (ps : alist pval) (n : name) (c : cinfo) : Prop :=
  i_name c = n /\ aget ps (n ++ ".type")%string = Some (PStr (i_type c)) /\ files_said ps n (i_files c) /\
  says ps (n ++ ".fallback_controllers")%string (i_fallback c) /\ says ps (n ++ ".node_options_args")%string (i_args c).
(** the parameters that are set have the right types *)
Definition typed (ps : alist pval) (n : name) : Prop :=
  (unset ps (n ++ ".type")%string \/ exists t, aget ps (n ++ ".type")%string = Some (PStr t)) /\
  (exists l, says ps (n ++ ".fallback_controllers")%string l) /\ (exists l, says ps (n ++ ".node_options_args")%string l).
(** one of the plugin loaders, or both, create the type *)
Definition created (o : outside) (w : world) (t : string) : Prop :=
  (o_plain o t = true \/ o_chain o t = true) /\
  (o_plain o t = true -> o_create o (w_log w) false t = true) /\
  (o_chain o t = true -> o_create o (if o_plain o t then UCreate false t :: w_log w else w_log w) true t = true).
(** user code seen during creation *)
Definition creation (o : outside) (t : string) : list uevent :=
  (if o_chain o t then [UCreate true t] else []) ++ (if o_plain o t then [UCreate false t] else []).
Definition loaded (w : world) (n : name) : Prop := In n (map i_name (w_ctrls w)).
(** only parameters of controller [n] that were not there have been added, with their defaults *)
Definition defaults_added (n : name) (ps ps' : alist pval) : Prop :=
  forall k, aget ps' k = aget ps k \/
    aget ps k = None /\ (k = (n ++ ".type")%string /\ aget ps' k = Some PUnset \/
      (k = (n ++ ".fallback_controllers")%string \/ k = (n ++ ".node_options_args")%string) /\ aget ps' k = Some (PStrs [])).

(** ---- the arguments of a node, as rcl reads them: outside --ros-args everything is the user's; inside, up to "--", flags
    with a value, and words that are no known flag *)
Inductive item := User (s : string) | Given (flag val : string) | Bare (s : string).
Definition takes_value (s : string) : bool :=
  mem s ["--param"; "-p"; "--params-file"; "--remap"; "-r"; "--enclave"; "-e"; "--log-level"; "--log-file-name"].
Inductive mode := Outside | Inside | Awaits (flag : string).
Definition read_one (m : mode) (s : string) : mode * list item :=
  match m with
  | Awaits f => (Inside, [Given f s])
  | Outside => if String.eqb s "--ros-args" then (Inside, []) else (Outside, [User s])
  | Inside => if String.eqb s "--ros-args" then (Inside, []) else if String.eqb s "--" then (Outside, [])
              else if takes_value s then (Awaits s, []) else (Inside, [Bare s])
  end.
Fixpoint read_args (m : mode) (l : list string) : mode * list item :=
  match l with
  | [] => (m, [])
  | s :: l' => let '(m1, i1) := read_one m s in let '(m2, i2) := read_args m1 l' in (m2, i1 ++ i2)
  end.
(** custom options that a type may define: no ROS arguments at all, or ROS arguments up to the end *)
Definition open_ended (l : list string) : Prop := ~ In "--ros-args" l \/ fst (read_args Outside l) = Inside.
Definition items (l : list string) : list item := snd (read_args Outside l).
(** the user's own arguments: no --ros-args at all, or from the beginning *)
Definition plain_user (l : list string) : Prop := ~ In "--ros-args" l \/ hd_error l = Some "--ros-args".
