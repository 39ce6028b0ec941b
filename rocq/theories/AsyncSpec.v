(** AsyncSpec.v -- what the order of calls of an asynchronous component or controller should look like.  Logs are newest first. *)
From Coq Require Import List Bool.
From Verif Require Import Base Events AsyncModel.
Import ListNotations.

Definition same (a b : io) : bool := match a, b with Read, Read | Write, Write => true | _, _ => false end.
(** is a call of read() or write() (of a life-cycle callback; of a command mode switch) under way at the end of the log *)
Fixpoint io_open (c : io) (tr : list ev) : bool :=
  match tr with
  | [] => false
  | IoBegin d _ :: o => if same c d then true else io_open c o
  | IoEnd d _ :: o => if same c d then false else io_open c o
  | _ :: o => io_open c o end.
Fixpoint cb_open (tr : list ev) : bool := match tr with [] => false | CbBegin _ _ :: _ => true | CbEnd _ _ :: _ => false | _ :: o => cb_open o end.
Fixpoint mode_open (tr : list ev) : bool := match tr with [] => false | ModeBegin :: _ => true | ModeEnd :: _ => false | _ :: o => mode_open o end.
(** what the last finished read() or write() since the last activation returned *)
Fixpoint last_io (c : io) (tr : list ev) : rtype :=
  match tr with
  | [] => ROk
  | IoEnd d r :: o => if same c d then r else last_io c o
  | CbBegin KActivate _ :: _ => ROk
  | _ :: o => last_io c o end.
Definition counts (p : ev -> bool) (tr : list ev) : nat := length (filter p tr).
Definition begins (c : io) (e : ev) : bool := match e with IoBegin d _ => same c d | _ => false end.
Definition good_read (e : ev) : bool := match e with IoEnd Read ROk => true | _ => false end.
Definition accepted (e : ev) : bool := match e with ReadAns true _ => true | _ => false end.
(** nothing under way *)
Definition at_rest (s : hst) : Prop := st_wk s = WIdle /\ st_mg s = MRest.
(** what the framework's thread does *)
Definition framework (e : ev) : bool := match e with IoBegin _ _ | IoEnd _ _ => false | _ => true end.
(** the framework's next event after [o], in [n ++ o] *)
Definition next_event (n : list ev) : option ev := hd_error (rev (filter framework n)).
(** the callbacks of the life cycle and their states *)
Definition allowed (k : kcb) (l : lc) : Prop :=
  match k with
  | KConfigure => l = Unconfigured | KCleanup | KActivate => l = Inactive | KDeactivate => l = Active
  | KShutdown => l = Unconfigured \/ l = Inactive \/ l = Active | KError => l = Inactive \/ l = Active \/ l = Finalized end.
(** the callback an answer calls for *)
Definition demands (e : ev) (k : kcb) : Prop :=
  match e with
  | ReadAns _ r => r <> ROk /\ k = KError
  | WriteAns r => r = RError /\ k = KError \/ r = RDeactivate /\ k = KDeactivate
  | _ => False end.
(** no read() has finished since the last on_configure *)
Fixpoint unread (tr : list ev) : bool :=
  match tr with [] => true | CbBegin KConfigure _ :: _ => true | IoEnd Read _ :: _ => false | _ :: o => unread o end.

(** controllers *)
Fixpoint upd_open (tr : list cev) : bool := match tr with [] => false | UBegin :: _ => true | UEnd :: _ => false | _ :: o => upd_open o end.
Fixpoint deact_open (tr : list cev) : bool := match tr with [] => false | DBegin :: _ => true | DEnd _ :: _ => false | _ :: o => deact_open o end.
Fixpoint active_of (tr : list cev) : bool := match tr with [] => false | Activated :: _ => true | DEnd true :: _ => false | _ :: o => active_of o end.
Definition updates (tr : list cev) : nat := length (filter (fun e => match e with UBegin => true | _ => false end) tr).
(** schedules in which nothing fails and the flag is never set between the loop's look at it and its trigger *)
Fixpoint undivided (s : cst) (l : list cact) : Prop :=
  match l with
  | [] => True
  | a :: l' => a <> CFail /\ (a = CPrepare -> ct_lp s <> LPassed) /\ undivided (cstep s a) l' end.
