(** StatsModel.v -- run-time statistics.
    Models /repo/hardware_interface/include/hardware_interface/types/statistics_types.hpp:
    MovingAverageStatistics (48-209) and MovingAverageStatisticsData (215-293), operation by operation.
    Simplifications: arithmetic is exact (real numbers with NaN and the infinities, overflow and rounding not
    modelled); the 64-bit sample counter is a natural number; every method holds the object's mutex for its whole
    body, so histories are sequences of methods (concurrent callers are serialised by that mutex). *)
From Coq Require Import Reals List Bool Arith.
Import ListNotations.

(** a double in exact arithmetic *)
Inductive val := Num (r : R) | PInf | NInf | Nan.
(** arithmetic; the code only computes with the infinities excluded (isfinite), so an operation with a
    non-finite operand is simply NaN here *)
Definition lift2 (f : R -> R -> R) (a b : val) : val :=
  match a, b with Num x, Num y => Num (f x y) | _, _ => Nan end.
(** std::min(a,b) is (b < a) ? b : a ; std::max(a,b) is (a < b) ? b : a ; comparisons with NaN are false *)
Definition vmin (a b : val) : val :=
  match a, b with Num x, Num y => if Rlt_dec y x then b else a | _, _ => a end.
Definition vmax (a b : val) : val :=
  match a, b with Num x, Num y => if Rlt_dec x y then b else a | _, _ => a end.
Definition vsqrt (a : val) : val := match a with Num x => Num (sqrt x) | _ => Nan end.

(** std::numeric_limits<double>::max() = (2^53 - 1) * 2^971, and lowest() is its opposite *)
Definition DBL_MAX : R := ((2 ^ 53 - 1) * 2 ^ 971)%R.

(** libstatistics_collector StatisticData: its members default to NaN and 0 *)
Record data := { average : val; minimum : val; maximum : val; std_dev : val; count : nat }.
Definition fresh_data : data := {| average := Nan; minimum := Nan; maximum := Nan; std_dev := Nan; count := 0 |}.

(** MovingAverageStatistics, members at 204-208 *)
Record collector := { sdata : data; current : val; sumsq : val }.
Definition fresh : collector := {| sdata := fresh_data; current := Nan; sumsq := Num 0 |}.

(** reset, 144-154 *)
Definition reset (_ : collector) : collector :=
  {| sdata := {| average := Num 0; minimum := Num DBL_MAX; maximum := Num (- DBL_MAX); std_dev := Num 0; count := 0 |};
     current := Nan; sumsq := Num 0 |}.
(** reset_current_measurement, 156-160 *)
Definition reset_current (c : collector) : collector := {| sdata := sdata c; current := Num 0; sumsq := sumsq c |}.

(** add_measurement, 168-190 *)
Definition add (item : val) (c : collector) : collector :=
  match item with
  | Num _ =>
    let d := sdata c in
    let n := S (count d) in
    let prev := average d in
    let avg := lift2 Rplus prev (lift2 Rdiv (lift2 Rminus item prev) (Num (INR n))) in
    let ss := lift2 Rplus (sumsq c) (lift2 Rmult (lift2 Rminus item prev) (lift2 Rminus item avg)) in
    {| sdata := {| average := avg; minimum := vmin (minimum d) item; maximum := vmax (maximum d) item;
                   std_dev := vsqrt (lift2 Rdiv ss (Num (INR n))); count := n |};
       current := item; sumsq := ss |}
  | _ => {| sdata := sdata c; current := item; sumsq := sumsq c |}
  end.

(** MovingAverageStatisticsData, members 285-292 (the reset threshold starts at UINT_MAX, 2^32 - 1) *)
Record published := { pdata : data; pcurrent : val; threshold : N }.
Definition fresh_published : published := {| pdata := fresh_data; pcurrent := Nan; threshold := 4294967295 |}.

Record world := { coll : collector; publ : published }.
Definition start : world := {| coll := fresh; publ := fresh_published |}.

(** update_statistics, 231-248 *)
Definition publish (w : world) : world :=
  let c := coll w in let p := publ w in
  let p' := match count (sdata c) with
            | O => p
            | _ => {| pdata := sdata c; pcurrent := current c; threshold := threshold p |}
            end in
  let c' := if N.leb (threshold p) (N.of_nat (count (sdata c))) then reset c else c in
  {| coll := c'; publ := p' |}.

Inductive op :=
| Reset | ResetCurrent | Add (item : val)
| Publish                         (* update_statistics *)
| SetThreshold (n : N)            (* set_reset_statistics_sample_count, 254-258 *)
| ResetPublished.                 (* MovingAverageStatisticsData::reset, 260-267 *)

Definition step (o : op) (w : world) : world :=
  match o with
  | Reset => {| coll := reset (coll w); publ := publ w |}
  | ResetCurrent => {| coll := reset_current (coll w); publ := publ w |}
  | Add v => {| coll := add v (coll w); publ := publ w |}
  | Publish => publish w
  | SetThreshold n => {| coll := coll w; publ := {| pdata := pdata (publ w); pcurrent := pcurrent (publ w); threshold := n |} |}
  | ResetPublished => {| coll := coll w; publ := {| pdata := fresh_data; pcurrent := pcurrent (publ w); threshold := threshold (publ w) |} |}
  end.
Definition run (os : list op) (w : world) : world := fold_left (fun w o => step o w) os w.
