(** StatsSpec.v -- what the statistics of a list of samples are (textbook definitions), and which samples belong to
    the current window.  Independent of the model's incremental computation. *)
From Coq Require Import Reals List Bool Arith.
From Verif Require Import StatsModel.
Import ListNotations.
Open Scope R_scope.

Definition sum (xs : list R) : R := fold_right Rplus 0 xs.
Definition mean (xs : list R) : R := sum xs / INR (length xs).
Definition variance (xs : list R) : R := sum (map (fun x => (x - mean xs) ^ 2) xs) / INR (length xs).
Definition least (m : R) (xs : list R) : Prop := In m xs /\ forall x, In x xs -> m <= x.
Definition greatest (m : R) (xs : list R) : Prop := In m xs /\ forall x, In x xs -> x <= m.

(** [d] shows the statistics of the (non-empty) samples [xs] *)
Definition statistics_of (xs : list R) (d : data) : Prop :=
  count d = length xs /\ average d = Num (mean xs) /\ std_dev d = Num (sqrt (variance xs)) /\
  (exists m, minimum d = Num m /\ least m xs) /\ (exists m, maximum d = Num m /\ greatest m xs).

(** The window of a history: the finite samples added since the last reset (None: never reset).  A publication
    resets the collector when the number of finite samples (also counted for a never-reset collector) has reached
    the threshold. *)
Record window := { samples : list R; was_reset : bool; limit : N }.
Definition window_step (o : op) (w : window) : window :=
  match o with
  | Reset => {| samples := []; was_reset := true; limit := limit w |}
  | Add (Num r) => {| samples := samples w ++ [r]; was_reset := was_reset w; limit := limit w |}
  | Publish => if N.leb (limit w) (N.of_nat (length (samples w)))
               then {| samples := []; was_reset := true; limit := limit w |} else w
  | SetThreshold n => {| samples := samples w; was_reset := was_reset w; limit := n |}
  | _ => w
  end.
Definition window_of (os : list op) : window :=
  fold_left (fun w o => window_step o w) os {| samples := []; was_reset := false; limit := 4294967295 |}.

(** finite doubles *)
Definition representable (o : op) : Prop :=
  match o with Add (Num r) => - DBL_MAX <= r <= DBL_MAX | _ => True end.
(** the last argument of add_measurement (or 0 after reset_current_measurement) since the last reset *)
Definition current_step (o : op) (v : val) : val :=
  match o with Add x => x | ResetCurrent => Num 0 | Reset => Nan | _ => v end.
