(** RtSpec.v -- what C23 and C24 demand of an observed history, independent of the machine. *)
From Coq Require Import List Bool String Arith.
Import ListNotations.
From Verif Require Import Base RtModel.
Open Scope list_scope.

(** c is one of the controllers the request is about *)
Definition concerns (r : req) (c : name) : Prop :=
  In c (r_act r) \/ In c (r_deact r) \/ In c (r_to r) \/ In c (r_from r).

(** C23.  [history l] is chronological.  Whoever reads the list it obtained finds it as it obtained it, and what it
    obtained had been published completely: it is the latest or the last but one published content (the empty
    list before the first publication). *)
Fixpoint list_ok (pubs : list (list name)) (h : list ev) : Prop :=
  match h with
  | [] => True
  | EPublish v :: h => list_ok (v :: pubs) h
  | EBegin v :: h => In v (firstn 2 pubs) /\ list_ok pubs h
  | ERead v0 v :: h => v = v0 /\ list_ok pubs h
  | _ :: h => list_ok pubs h
  end.
Definition never_modified_in_use (h : list ev) : Prop := list_ok [[]] h.

(** C24.  Where a switch request is: not posted; posted; being executed by one thread, with the number of steps
    done; executed. *)
Inductive phase := PFree | PPosted (r : req) | PStep (r : req) (t : tid) (k : nat) | PSwitched (r : req).
Definition executor (r : req) : tid := if r_asap r then TRt else TSv.
Fixpoint switch_ok (p : phase) (u : option name) (h : list ev) : Prop :=
  match h with
  | [] => True
  | EPost r :: h => p = PFree /\ switch_ok (PPosted r) u h
  (* executed for a posted request only, by the thread the request names, on the requested lists, and while no
     controller of the request is being updated *)
  | EPerf t a d ok :: h => exists r, p = PPosted r /\ t = executor r /\ a = r_aitf r /\ d = r_ditf r /\
      (forall c, u = Some c -> ~ concerns r c) /\ switch_ok (PStep r t (if ok then 0 else 4)) u h
  | EDeact t l :: h => exists r, p = PStep r t 0 /\ l = r_deact r /\ switch_ok (PStep r t 1) u h
  | ETo t l :: h => exists r, p = PStep r t 1 /\ l = r_to r /\ switch_ok (PStep r t 2) u h
  | EFrom t l :: h => exists r, p = PStep r t 2 /\ l = r_from r /\ switch_ok (PStep r t 3) u h
  | EAct t l strict :: h => exists r, p = PStep r t 3 /\ l = r_act r /\ strict = r_strict r /\ switch_ok (PStep r t 4) u h
  | ESwitched t :: h => exists r, p = PStep r t 4 /\ switch_ok (PSwitched r) u h
  (* success only after the execution, timeout only if nothing was executed *)
  | ERet ROk :: h => (exists r, p = PSwitched r) /\ switch_ok PFree u h
  | ERet RTimeout :: h => (exists r, p = PPosted r) /\ switch_ok PFree u h
  | ERet RRejected :: h => p = PFree /\ switch_ok PFree u h
  (* while a request is executed no controller of it is updated; by the real-time thread: no controller at all *)
  | EUpd c :: h => u = None /\ (forall r t k, p = PStep r t k -> t = TSv /\ ~ concerns r c) /\ switch_ok p (Some c) h
  | EUpdEnd c :: h => u = Some c /\ switch_ok p None h
  | EPublish _ :: h | EBegin _ :: h | ERead _ _ :: h => switch_ok p u h
  end.
Definition switched_once (h : list ev) : Prop := switch_ok PFree None h.

(** The schedules for which C23 and C24 hold.
    [first_access_atomic]: when the real-time thread fetches the list for the very first time, no service step falls
    between its load and its store of the index.
    [not_overtaken]: a call that timed out does not withdraw its request in the few instructions between the
    real-time thread's reading of the request flag and its reaction to it. *)
Definition first_access (s : st) : bool :=
  match used s, rt s with None, RLd _ _ => true | _, _ => false end.
Definition reacting (s : st) : bool :=
  match rt s with RChk _ _ _ | RSkp _ _ _ | RTa _ | RRdy _ | RLk _ => true | _ => false end.
Definition withdraws (s : st) (a : act) : bool :=
  match a, sv s with ASv IGo, SClr1 RTimeout => true | _, _ => false end.
Definition first_access_atomic (s : st) (a : act) : Prop :=
  first_access s = true -> match a with ARt _ => True | ASv _ => False end.
Definition not_overtaken (s : st) (a : act) : Prop := withdraws s a = true -> reacting s = false.
(** a condition at every step of a run *)
Fixpoint along (P : st -> act -> Prop) (s : st) (l : list act) : Prop :=
  match l with [] => True | a :: l => P s a /\ match step s a with Some s => along P s l | None => True end end.
Definition history (s : st) : list ev := rev (log s).

(** Data races.  The real-time thread holds a reference to list [i]; the service side is about to write list [i]. *)
Definition references (r : rpc) : list sess :=
  match r with
  | RPl x | RLp x _ | RChk x _ _ | RSkp x _ _ | RUpd x _ _ | RTa x | RRdy x | RLk x => [x]
  | RMan (MDeact x) | RMan (MLoadT x) | RMan (MStoreT x _) | RMan (MLoadF x) | RMan (MStoreF x _) | RMan (MAct x) => [x]
  | RMan (MTo x y) | RMan (MFrom x y) => [x; y]
  | _ => []
  end.
Definition rt_uses (s : st) (i : bool) : Prop := exists v, In (i, v) (references (rt s)).
Definition sv_writes (s : st) (i : bool) : Prop := exists k, (sv s = SMod k \/ sv s = SClearL k) /\ i = negb (upd s).
(** The real-time thread is about to read the request vectors; the service side is about to write them. *)
Definition rt_reads_request (s : st) : Prop :=
  match rt s with RSkp _ _ _ | RMan _ => True | _ => False end.
Definition sv_writes_request (s : st) : Prop := sv s = SFill \/ exists r, sv s = SClr4 r.

Definition ok_schedule (s : st) (l : list act) : Prop :=
  along first_access_atomic s l /\ along not_overtaken s l.
