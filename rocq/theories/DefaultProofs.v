(** DefaultProofs.v -- C79: initial values; what is exported; loading. *)
From Coq Require Import ZArith Ascii Floats.SpecFloat Permutation Lia.
From Verif Require Import LimitsModel HandleModel HandleSpec LexModel LexSpec LexProofs ParserModel XmlTypes XmlModel Base Events HwModel RmModel LoadModel LoadSpec LoadProofs LoadMain DefaultModel DefaultSpec Props_Lex.
Open Scope string_scope. Open Scope nat_scope. Open Scope list_scope.

(** ---- initial values *)
Lemma dtype_word s t : dtype_of s = Some t <-> s = word t.
Proof.
  unfold dtype_of. split.
  - repeat (match goal with |- context [String.eqb s ?k] => destruct (String.eqb_spec s k); [intros E; injection E as <-; assumption|] end). discriminate.
  - intros ->. destruct t; reflexivity.
Qed.
Lemma pbool_iff s b : pbool s = Some b <-> case_variant (list_ascii_of_string s) (if b then "true" else "false").
Proof. rewrite <- main_bool. unfold pbool. destruct (parse_bool _); split; intros E; try discriminate; congruence. Qed.
Definition is_int (t : dtype) : Prop := t <> DOUBLE /\ t <> FLOAT32 /\ t <> BOOL.
Lemma fits_int t z : fits t z -> is_int t.
Proof. unfold is_int. intros H. destruct H; repeat split; discriminate. Qed.
Lemma fits_top t : is_int t -> fits t (top t) /\ forall z, fits t z -> (z <= top t)%Z.
Proof.
  intros (A & B & C). destruct t; try congruence; (split; [constructor; cbn; lia|intros z F; inversion F; cbn; lia]).
Qed.
Lemma integer_of_in t s z : is_int t -> integer (list_ascii_of_string s) z -> fits t z -> integer_of t s = Some z.
Proof.
  intros (A & B & C) I F. unfold integer_of. destruct F as [z R|z R|z R|z R|z R|z R].
  - rewrite (main_unsigned_accepts 8 _ _ ltac:(lia) I R). reflexivity.
  - rewrite (proj2 (main_signed 8 _ _ ltac:(lia)) (conj I R)). reflexivity.
  - rewrite (main_unsigned_accepts 16 _ _ ltac:(lia) I R). reflexivity.
  - rewrite (proj2 (main_signed 16 _ _ ltac:(lia)) (conj I R)). reflexivity.
  - rewrite (main_unsigned_accepts 32 _ _ ltac:(lia) I R). reflexivity.
  - rewrite (proj2 (main_signed 32 _ _ ltac:(lia)) (conj I R)). reflexivity.
Qed.
Lemma integer_of_out t s z : is_int t -> ~ unsigned t \/ ~ In "-"%char (list_ascii_of_string s) -> integer_of t s = Some z ->
  integer (list_ascii_of_string s) z /\ fits t z.
Proof.
  intros (A & B & C) U. unfold integer_of, unsigned in *.
  destruct t; try congruence; intros E.
  all: match type of E with match ?x with _ => _ end = _ => destruct x eqn:R; try discriminate; injection E as -> end.
  all: try (apply main_signed in R; [|lia]; destruct R as [R1 R2]; split; [exact R1|constructor; exact R2]).
  all: destruct U as [U|U]; [exfalso; apply U; tauto|].
  all: apply main_unsigned in R; [|lia|exact U]; destruct R as [R1 R2]; split; [exact R1|constructor; exact R2].
Qed.
Lemma initial_in u i v : starts_with u i v -> initial u i = Some v.
Proof.
  intros [T H]. unfold initial. rewrite (proj2 (dtype_word _ _) T).
  destruct (String.eqb (ii_initial i) "").
  - destruct H as [| | |t z F M]; try reflexivity. cbn [type_of]. pose proof (fits_int _ _ F) as I. destruct (fits_top t I) as [X Y].
    assert (z = top t) as -> by (apply Z.le_antisymm; [apply Y; exact F|apply M; exact X]).
    destruct I as (A & B & C). destruct t; try congruence; reflexivity.
  - destruct H as [x E|x E|b E|t z E F]; cbn [type_of].
    + rewrite E. reflexivity.
    + rewrite E. reflexivity.
    + apply pbool_iff in E. rewrite E. reflexivity.
    + pose proof (fits_int _ _ F) as I. pose proof (integer_of_in _ _ _ I E F) as R. destruct I as (A & B & C).
      destruct t; try congruence; rewrite R; reflexivity.
Qed.
Lemma initial_out u i v : (forall t, ii_type i = word t -> ~ unsigned t \/ ~ In "-"%char (list_ascii_of_string (ii_initial i))) ->
  initial u i = Some v -> starts_with u i v.
Proof.
  intros U. unfold initial. destruct (dtype_of (ii_type i)) as [t|] eqn:T; [|discriminate]. apply dtype_word in T.
  specialize (U t T). unfold starts_with.
  destruct (String.eqb (ii_initial i) "") eqn:B; intros E.
  - assert (X : is_int t -> Some (VInt t (top t)) = Some v -> ii_type i = word (type_of v) /\ blank_value v).
    { intros N Y. injection Y as <-. split; [exact T|]. destruct (fits_top t N) as [P Q]. constructor; assumption. }
    destruct t; try (apply X; [repeat split; discriminate|exact E]); injection E as <-; (split; [exact T|constructor]).
  - assert (X : is_int t -> option_map (VInt t) (integer_of t (ii_initial i)) = Some v -> ii_type i = word (type_of v) /\ reads_as u (ii_initial i) v).
    { intros N Y. destruct (integer_of t (ii_initial i)) as [z|] eqn:R; [|discriminate]. injection Y as <-. split; [exact T|].
      destruct (integer_of_out t _ z N U R) as [P Q]. constructor; assumption. }
    destruct t; try (apply X; [repeat split; discriminate|exact E]).
    + destruct (u_stod u (ii_initial i)) eqn:R; [|discriminate]. injection E as <-. split; [exact T|constructor; exact R].
    + destruct (u_stof u (ii_initial i)) eqn:R; [|discriminate]. injection E as <-. split; [exact T|constructor; exact R].
    + destruct (pbool (ii_initial i)) eqn:R; [|discriminate]. injection E as <-. split; [exact T|constructor; apply pbool_iff; exact R].
Qed.
