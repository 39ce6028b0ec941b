(** LexProofs.v -- proofs about the lexical casts (C40, C41). *)
From Coq Require Import ZArith Bool List Ascii String Lia.
From Verif Require Import LexModel LexSpec.
Import ListNotations.
Open Scope Z_scope.
Open Scope list_scope.

Lemma digit_iff c d : digit_of c = Some d <-> digit c d.
Proof.
  split.
  - destruct c as [[] [] [] [] [] [] [] []]; vm_compute; intros H; try discriminate; injection H as <-; split; [discriminate|reflexivity| | | | | | | | | | | | | | | | | |]; try discriminate; reflexivity.
  - intros [H E]. assert (L : (Z.to_nat d < 10)%nat) by (apply (nth_error_Some digits10); congruence).
    assert (D : d = 0 \/ d = 1 \/ d = 2 \/ d = 3 \/ d = 4 \/ d = 5 \/ d = 6 \/ d = 7 \/ d = 8 \/ d = 9) by lia.
    repeat (destruct D as [->|D]; [vm_compute in E; injection E as <-; reflexivity|]). subst. vm_compute in E. injection E as <-. reflexivity.
Qed.
Lemma space_iff c : is_space c = true <-> space c.
Proof.
  split.
  - destruct c as [[] [] [] [] [] [] [] []]; vm_compute; intros H; try discriminate; auto 8.
  - unfold space. cbn [map In]. intros [<-|[<-|[<-|[<-|[<-|[<-|[]]]]]]]; reflexivity.
Qed.
Lemma digit_nonneg c d : digit_of c = Some d -> 0 <= d. Proof. intros H. apply digit_iff in H. destruct H. exact H. Qed.
Lemma digit_not_space c d : digit_of c = Some d -> is_space c = false /\ c <> "+"%char /\ c <> "-"%char.
Proof. destruct c as [[] [] [] [] [] [] [] []]; vm_compute; intros H; try discriminate; repeat split; discriminate. Qed.

(** digits and their value *)
Fixpoint value (acc : Z) (s : list ascii) : option Z :=
  match s with [] => Some acc | c :: r => match digit_of c with Some d => value (10 * acc + d) r | None => None end end.
Lemma value_snoc s c d : forall acc v, value acc s = Some v -> digit_of c = Some d -> value acc (s ++ [c]) = Some (10 * v + d).
Proof.
  induction s as [|x s IH]; intros acc v H D; cbn in *; [injection H as <-; rewrite D; reflexivity|].
  destruct (digit_of x); [|discriminate]. eauto.
Qed.
Lemma value_snoc_inv s c : forall acc v, value acc (s ++ [c]) = Some v -> exists u d, value acc s = Some u /\ digit_of c = Some d /\ v = 10 * u + d.
Proof.
  induction s as [|x s IH]; intros acc v H; cbn in *.
  - destruct (digit_of c); [|discriminate]. injection H as <-. eauto.
  - destruct (digit_of x); [|discriminate]. eauto.
Qed.
Lemma numeral_value s v : numeral s v <-> s <> [] /\ value 0 s = Some v.
Proof.
  split.
  - induction 1 as [c d D|s v c d _ [_ IH] D]; [split; [discriminate|]; cbn; apply digit_iff in D; rewrite D; reflexivity|].
    split; [destruct s; discriminate|]. apply value_snoc; [exact IH|apply digit_iff; exact D].
  - revert v. induction s as [|c s IH] using rev_ind; intros v [N H]; [congruence|]. apply value_snoc_inv in H. destruct H as (u & d & H & D & ->).
    apply digit_iff in D. destruct s as [|x s].
    + cbn in H. injection H as <-. change (10 * 0 + d) with d. constructor. exact D.
    + apply num_more; [apply IH; split; [discriminate|exact H]|exact D].
Qed.
Lemma value_nonneg s : forall acc v, 0 <= acc -> value acc s = Some v -> 0 <= v.
Proof.
  induction s as [|c s IH]; intros acc v A H; cbn in H; [injection H as <-; exact A|]. destruct (digit_of c) as [d|] eqn:D; [|discriminate].
  apply digit_nonneg in D. apply (IH (10 * acc + d)); [lia|exact H].
Qed.
Lemma take_value s : forall acc v, take_digits acc s = (v, []) <-> value acc s = Some v.
Proof.
  induction s as [|c s IH]; intros acc v; cbn; [split; intros H; injection H as <-; reflexivity|].
  destruct (digit_of c); [apply IH|]. split; discriminate.
Qed.
Lemma skip_app w s : Forall space w -> match s with c :: _ => is_space c = false | [] => True end -> skip_spaces (w ++ s) = s.
Proof.
  induction 1 as [|c w C _ IH]; intros H; cbn.
  - destruct s as [|c r]; [reflexivity|]. cbn. rewrite H. reflexivity.
  - apply space_iff in C. rewrite C. auto.
Qed.
Lemma skip_split s : exists w, Forall space w /\ s = w ++ skip_spaces s.
Proof.
  induction s as [|c s (w & W & E)]; [exists []; split; [constructor|reflexivity]|]. cbn. destruct (is_space c) eqn:C.
  - exists (c :: w). split; [constructor; [apply space_iff; exact C|exact W]|cbn; rewrite <- E; reflexivity].
  - exists []. split; [constructor|reflexivity].
Qed.
(** strto with nothing left over *)
Lemma strto_iff s x : (exists neg v, strto s = Some (neg, v, []) /\ x = if (neg : bool) then - v else v) <-> integer s x.
Proof.
  split.
  - intros (neg & v & H & ->). destruct (skip_split s) as (w & W & E). unfold strto in H.
    assert (K : forall t, match t with c :: _ => match digit_of c with Some _ => let '(v, r) := take_digits 0 t in Some (neg, v, r) | None => None end | [] => None end = Some (neg, v, []) -> numeral t v).
    { intros [|c t] K; [discriminate|]. destruct (digit_of c) as [d|] eqn:D; [|discriminate]. destruct (take_digits 0 (c :: t)) as [v' r'] eqn:T. injection K as <- ->.
      apply numeral_value. split; [discriminate|]. apply take_value. exact T. }
    rewrite E. set (t := skip_spaces s) in *. clearbody t.
    destruct t as [|c t]; [discriminate|].
    destruct (ascii_dec c "-"%char) as [->|N1]; [cbn [ascii_rect] in H|destruct (ascii_dec c "+"%char) as [->|N2]].
    + destruct t as [|c' t']; [discriminate|]. destruct (digit_of c') eqn:D; [|discriminate]. destruct (take_digits 0 (c' :: t')) as [v' r'] eqn:T. injection H as <- -> ->.
      apply int_minus; [exact W|]. apply numeral_value. split; [discriminate|]. apply take_value. exact T.
    + destruct t as [|c' t']; [discriminate|]. destruct (digit_of c') eqn:D; [|discriminate]. destruct (take_digits 0 (c' :: t')) as [v' r'] eqn:T. injection H as <- -> ->.
      apply int_plus; [exact W|]. apply numeral_value. split; [discriminate|]. apply take_value. exact T.
    + assert (Q : (match c :: t with "-"%char :: r => (true, r) | "+"%char :: r => (false, r) | _ => (false, c :: t) end) = (false, c :: t))
        by (destruct c as [[] [] [] [] [] [] [] []]; try reflexivity; congruence).
      rewrite Q in H. destruct (digit_of c) eqn:D; [|discriminate]. destruct (take_digits 0 (c :: t)) as [v' r'] eqn:T. injection H as <- -> ->.
      apply int_plain; [exact W|]. apply numeral_value. split; [discriminate|]. apply take_value. exact T.
  - assert (K : forall neg s v, numeral s v -> match s with c :: _ => match digit_of c with Some _ => let '(v, r) := take_digits 0 s in Some (neg, v, r) | None => None end | [] => None end = Some (neg : bool, v, @nil ascii)).
    { intros neg t v N. apply numeral_value in N. destruct N as [N V]. destruct t as [|c t]; [congruence|]. pose proof V as V'. cbn in V'.
      destruct (digit_of c); [|discriminate]. apply take_value in V. rewrite V. reflexivity. }
    intros H. destruct H as [w t v W N|w t v W N|w t v W N].
    + exists false, v. split; [|reflexivity]. unfold strto. pose proof N as N'. apply numeral_value in N'. destruct N' as [N1 N2]. destruct t as [|c t]; [congruence|]. cbn in N2.
      destruct (digit_of c) as [d|] eqn:D; [|discriminate]. destruct (digit_not_space c d D) as (D1 & D2 & D3). rewrite (skip_app w (c :: t) W D1).
      assert (Q : (match c :: t with "-"%char :: r => (true, r) | "+"%char :: r => (false, r) | _ => (false, c :: t) end) = (false, c :: t))
        by (destruct c as [[] [] [] [] [] [] [] []]; try reflexivity; congruence).
      rewrite Q. exact (K false (c :: t) v N).
    + exists false, v. split; [|reflexivity]. unfold strto. rewrite (skip_app w ("+"%char :: t) W eq_refl). exact (K false t v N).
    + exists true, v. split; [|reflexivity]. unfold strto. rewrite (skip_app w ("-"%char :: t) W eq_refl). exact (K true t v N).
Qed.
Lemma main_signed bits s v : 1 <= bits <= 64 -> stoi bits s = Ok v <-> integer s v /\ - 2 ^ (bits - 1) <= v < 2 ^ (bits - 1).
Proof.
  intros B. assert (P : 2 ^ (bits - 1) <= 2 ^ 63) by (apply Z.pow_le_mono_r; lia). rewrite <- strto_iff. unfold stoi, std_stol, long_min, long_max. split.
  - destruct (strto s) as [[[neg x] r]|]; [|discriminate]. cbv zeta. set (y := if neg then - x else x).
    destruct ((y <? - 2 ^ 63) || (2 ^ 63 - 1 <? y)); [discriminate|]. destruct r; [|discriminate].
    destruct ((y <? - 2 ^ (bits - 1)) || (2 ^ (bits - 1) - 1 <? y)) eqn:E; [discriminate|]. intros H. injection H as <-.
    apply orb_false_iff in E. destruct E as [E1 E2]. apply Z.ltb_ge in E1, E2. split; [exists neg, x; split; reflexivity|lia].
  - intros [(neg & x & -> & E) R]. cbv zeta. rewrite <- E. destruct (Z.ltb_spec v (- 2 ^ 63)); [lia|]. destruct (Z.ltb_spec (2 ^ 63 - 1) v); [lia|]. cbn [orb].
    destruct (Z.ltb_spec v (- 2 ^ (bits - 1))); [lia|]. destruct (Z.ltb_spec (2 ^ (bits - 1) - 1) v); [lia|]. reflexivity.
Qed.
Lemma strto_nonneg s neg v r : strto s = Some (neg, v, r) -> 0 <= v.
Proof.
  assert (T : forall s acc, 0 <= acc -> 0 <= fst (take_digits acc s)).
  { clear. induction s as [|c s IH]; intros acc A; cbn [take_digits]; [exact A|]. destruct (digit_of c) as [d|] eqn:D; [|exact A]. apply digit_nonneg in D. apply IH. lia. }
  unfold strto. match goal with |- (let '(_, _) := ?x in _) = _ -> _ => destruct x as [n t] end. destruct t as [|c t]; [discriminate|].
  destruct (digit_of c); [|discriminate]. specialize (T (c :: t) 0 (Z.le_refl 0)). destruct (take_digits 0 (c :: t)) as [v' r']. intros H. injection H as <- <- <-. exact T.
Qed.
Lemma main_unsigned_accepts bits s v : 0 <= bits <= 64 -> integer s v -> 0 <= v < 2 ^ bits -> stoui bits s = Ok v.
Proof.
  intros B I Rg. assert (P : 2 ^ bits <= 2 ^ 64) by (apply Z.pow_le_mono_r; lia). apply strto_iff in I. destruct I as (neg & x & H & E).
  pose proof (strto_nonneg _ _ _ _ H) as N. unfold stoui, std_stoul, ulong_max. rewrite H. destruct neg.
  - assert (x = 0) by lia. subst x. change (2 ^ 64 - 1 <? 0) with false. cbv iota. change (- 0 mod 2 ^ 64) with 0. destruct (Z.ltb_spec (2 ^ bits - 1) 0); [lia|]. f_equal. lia.
  - destruct (Z.ltb_spec (2 ^ 64 - 1) x); [lia|]. subst v. destruct (Z.ltb_spec (2 ^ bits - 1) x); [lia|]. reflexivity.
Qed.
Lemma strto_sign s v r : strto s = Some (true, v, r) -> In "-"%char s.
Proof.
  destruct (skip_split s) as (w & _ & E). unfold strto. destruct (skip_spaces s) as [|c t]; [discriminate|]. intros H.
  destruct (ascii_dec c "-"%char) as [->|N1]; [rewrite E; apply in_or_app; right; left; reflexivity|]. exfalso.
  destruct (ascii_dec c "+"%char) as [->|N2].
  - destruct t as [|c' t]; [discriminate|]. destruct (digit_of c'); [|discriminate]. destruct (take_digits 0 (c' :: t)); discriminate.
  - assert (Q : (match c :: t with "-"%char :: r => (true, r) | "+"%char :: r => (false, r) | _ => (false, c :: t) end) = (false, c :: t))
      by (destruct c as [[] [] [] [] [] [] [] []]; try reflexivity; congruence).
    rewrite Q in H. destruct (digit_of c); [|discriminate]. destruct (take_digits 0 (c :: t)); discriminate.
Qed.
Lemma main_unsigned bits s v : 0 <= bits <= 64 -> ~ In "-"%char s -> stoui bits s = Ok v <-> integer s v /\ 0 <= v < 2 ^ bits.
Proof.
  intros B N. split; [|intros [I R]; apply main_unsigned_accepts; assumption]. unfold stoui, std_stoul.
  destruct (strto s) as [[[neg x] r]|] eqn:H; [|discriminate]. destruct neg; [apply strto_sign in H; contradiction|].
  destruct (ulong_max <? x); [discriminate|]. destruct r; [|discriminate]. destruct (Z.ltb_spec (2 ^ bits - 1) x); [discriminate|]. intros K. injection K as <-.
  split; [apply strto_iff; exists false, x; auto|]. pose proof (strto_nonneg _ _ _ _ H). lia.
Qed.
(** a minus sign: accepted only if the digits denote 0 or more than 2^64 - 2^bits *)
Lemma main_unsigned_minus bits s v : 0 <= bits <= 32 -> stoui bits s = Ok v ->
  0 <= v < 2 ^ bits /\ (integer s v \/ integer s (v - 2 ^ 64)).
Proof.
  intros B. assert (P : 2 ^ bits <= 2 ^ 32) by (apply Z.pow_le_mono_r; lia). unfold stoui, std_stoul, ulong_max.
  destruct (strto s) as [[[neg x] r]|] eqn:H; [|discriminate]. pose proof (strto_nonneg _ _ _ _ H) as N.
  destruct (Z.ltb_spec (2 ^ 64 - 1) x); [discriminate|]. destruct r; [|discriminate]. set (y := if neg then - x mod 2 ^ 64 else x).
  destruct (Z.ltb_spec (2 ^ bits - 1) y); [discriminate|]. intros K. injection K as <-.
  destruct neg; subst y.
  - pose proof (Z.mod_pos_bound (- x) (2 ^ 64) ltac:(lia)) as M. split; [lia|]. assert (D : x = 0 \/ 0 < x) by lia. destruct D as [->|D].
    + left. apply strto_iff. exists true, 0. auto.
    + right. apply strto_iff. exists true, x. split; [exact H|]. assert (Q : - x mod 2 ^ 64 = 2 ^ 64 - x). { symmetry. apply (Z.mod_unique _ _ (-1)); lia. } lia.
  - split; [lia|]. left. apply strto_iff. exists false, x. auto.
Qed.

Lemma variant_lower s w : Forall (fun d => exists k, (97 <= k <= 122)%nat /\ d = ascii_of_nat k) w ->
  to_lower_case s = w <-> Forall2 (fun c d => c = d \/ c = capital d) s w.
Proof.
  intros W. assert (C : forall c d, (exists k, (97 <= k <= 122)%nat /\ d = ascii_of_nat k) -> tolower c = d <-> (c = d \/ c = capital d)).
  { intros c d (k & K & ->). assert (A : nat_of_ascii (ascii_of_nat k) = k) by (apply nat_ascii_embedding; lia). unfold capital. rewrite A. unfold tolower. split.
    - destruct ((65 <=? N_of_ascii c)%N && (N_of_ascii c <=? 90)%N) eqn:E; [|auto]. intros H. right. apply andb_true_iff in E. destruct E as [E1 E2]. apply N.leb_le in E1, E2.
      assert (H' : N_of_ascii (ascii_of_N (N_of_ascii c + 32)) = N_of_ascii (ascii_of_nat k)) by (rewrite H; reflexivity).
      rewrite N_ascii_embedding in H' by lia. unfold ascii_of_nat in H'. rewrite N_ascii_embedding in H' by lia.
      rewrite <- (ascii_N_embedding c). unfold ascii_of_nat. f_equal. lia.
    - intros [->| ->].
      + unfold ascii_of_nat. rewrite N_ascii_embedding by lia. destruct (N.leb_spec (N.of_nat k) 90); [lia|]. rewrite andb_false_r. reflexivity.
      + unfold ascii_of_nat. rewrite N_ascii_embedding by lia. destruct (N.leb_spec 65 (N.of_nat (k - 32))); [|lia]. destruct (N.leb_spec (N.of_nat (k - 32)) 90); [|lia]. cbn. f_equal. lia. }
  unfold to_lower_case. revert s. induction W as [|d w D _ IH]; intros s.
  - split; [destruct s; [constructor|discriminate]|]. intros H. inversion H. reflexivity.
  - destruct s as [|c s]; [split; [discriminate|intros H; inversion H]|]. cbn [map]. split.
    + intros H. injection H as H1 H2. constructor; [apply C; assumption|apply IH; exact H2].
    + intros H. inversion H; subst. f_equal; [apply C; assumption|apply IH; assumption].
Qed.
Lemma main_bool s b : parse_bool s = Ok b <-> case_variant s (if b then "true" else "false").
Proof.
  assert (T : forall w, In w ["true"; "false"]%string -> Forall (fun d => exists k, (97 <= k <= 122)%nat /\ d = ascii_of_nat k) (list_ascii_of_string w)).
  { intros w [<-|[<-|[]]]; repeat (constructor; [eexists; split; [|match goal with |- ?c = ascii_of_nat ?k => let n := eval vm_compute in (nat_of_ascii c) in unify k n; reflexivity end]; lia|]); constructor. }
  unfold parse_bool, case_variant, str_eqb. rewrite <- variant_lower by (apply T; destruct b; cbn; auto).
  destruct (list_eq_dec _ _ _) as [E|E].
  - rewrite E. destruct b; split; try reflexivity; try discriminate.
  - destruct (list_eq_dec _ _ _) as [E'|E'].
    + rewrite E'. destruct b; split; try reflexivity; try discriminate.
    + split; [discriminate|]. destruct b; intros H; congruence.
Qed.
