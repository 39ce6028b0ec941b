(** RtWitness.v -- concrete schedules. *)
From Coq Require Import List Bool String Arith.
Import ListNotations.
From Verif Require Import Base RtModel RtSpec.
Open Scope string_scope.
Open Scope list_scope.

Definition rtn (n : nat) : list act := repeat (ARt true) n.
(** the service side publishes [v] (the real-time thread is let through where the service waits for it) *)
Definition publish (v : list name) : list act := [ASv IList; ASv IGo; ASv (IWrite v); ASv IGo].
Definition collect : list act := [ASv IGo; ASv IGo; ASv IGo].
(** one empty read/write session of the real-time thread *)
Definition touch : list act := [ARt false; ARt false; ARt false].
Definition setup (v : list name) : list act := publish v ++ touch ++ collect.
Definition ra (b : bool) : req := Req ["a"] ["b"] [] [] ["j/pos"] [] true b.
Definition post (b : bool) : list act := [ASv ISwitch; ASv (IReq (ra b)); ASv IYes; ASv IGo; ASv IGo; ASv IGo].
Definition wait_asap : list act := [ASv IGo; ASv IGo].
Definition seen_done : list act := [ASv IYes; ASv IGo; ASv IGo].
Definition finish : list act := [ASv IGo; ASv (IWrite ["a"; "b"]); ASv IGo] ++ touch ++ [ASv IGo; ASv IGo; ASv IGo; ASv IGo; ASv IGo; ASv IGo; ASv IGo].
(** one update cycle over two controllers that are updated, up to the reading of the request flag *)
Definition cycle2_asap : list act := rtn 2 ++ [ARt true; ARt true; ARt true; ARt true; ARt true; ARt true] ++ [ARt true].
(** a complete asap switch *)
Definition asap_run : list act :=
  setup ["a"; "b"] ++ post true ++ wait_asap ++ cycle2_asap ++ rtn 2 ++ rtn 13 ++ seen_done ++ finish.
(** a complete switch executed by the service side while the real-time thread updates another controller *)
Definition slow_run : list act :=
  setup ["a"; "c"] ++ rtn 3 ++ post false ++ rtn 8 ++            (* "a" is being updated when the request comes *)
  [ASv IGo; ASv IGo; ASv IGo] ++ rtn 12 ++ repeat (ASv IGo) 12 ++ finish.
(** a call that times out *)
Definition timeout_run : list act :=
  setup ["a"] ++ post true ++ wait_asap ++ [ASv INo; ASv IGo; ASv IGo] ++ repeat (ASv IGo) 4.
(** the first cycle of the real-time thread overlaps with two loads *)
Definition startup_race : list act :=
  publish ["a"] ++ collect ++ [ARt true] ++ publish ["a"; "b"] ++ [ASv IGo; ASv IGo] ++ [ARt true] ++ [ASv IGo] ++ [ARt true].
(** the real-time thread sees a request, the call times out, and the thread reacts to the request of the next call *)
Definition overtaken : list act :=
  setup ["c"] ++ post true ++ wait_asap ++ rtn 7 ++
  [ASv INo; ASv IGo; ASv IGo] ++ repeat (ASv IGo) 4 ++
  [ASv ISwitch; ASv (IReq (ra true))] ++ rtn 14 ++
  [ASv IYes; ASv IGo; ASv IGo; ASv IGo] ++ wait_asap ++ rtn 21 ++ seen_done ++ finish.
Definition fin (l : list act) : option st := run start l.
Definition evs (l : list act) : list ev := match run start l with Some s => history s | None => [] end.
(** deciding the assumptions on concrete schedules *)
Fixpoint faab (s : st) (l : list act) : bool :=
  match l with [] => true
  | a :: l => (negb (first_access s) || match a with ARt _ => true | ASv _ => false end) &&
              match step s a with Some s => faab s l | None => true end end.
Fixpoint notb (s : st) (l : list act) : bool :=
  match l with [] => true
  | a :: l => (negb (withdraws s a) || negb (reacting s)) && match step s a with Some s => notb s l | None => true end end.
Lemma faab_ok l : forall s, faab s l = true -> along first_access_atomic s l.
Proof.
  induction l as [|a l IH]; intros s H; cbn in *; [exact I|]. apply andb_true_iff in H. destruct H as [A B]. split.
  - intros F. rewrite F in A. destruct a; [exact I|discriminate].
  - destruct (step s a); [exact (IH _ B)|exact I].
Qed.
Lemma notb_ok l : forall s, notb s l = true -> along not_overtaken s l.
Proof.
  induction l as [|a l IH]; intros s H; cbn in *; [exact I|]. apply andb_true_iff in H. destruct H as [A B]. split.
  - intros F. rewrite F in A. destruct (reacting s); [discriminate|reflexivity].
  - destruct (step s a); [exact (IH _ B)|exact I].
Qed.
Lemma ok_sched s l : faab s l && notb s l = true -> ok_schedule s l.
Proof. intros H. apply andb_true_iff in H. destruct H as [A B]. split; [exact (faab_ok l s A)|exact (notb_ok l s B)]. Qed.
