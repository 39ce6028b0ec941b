(** XmlProofs.v *)
From Coq Require Import List Bool String Ascii ZArith SpecFloat Lia.
From Verif Require Import Base LexModel LexSpec LexProofs ArrayModel ArraySpec ArrayProofs LimitsModel ParserModel XmlTypes XmlModel XmlSpec.
Import ListNotations.
Open Scope string_scope.
Open Scope Z_scope.
Open Scope list_scope.

Lemma chars_inj a b : chars a = chars b -> a = b.
Proof. intro H. rewrite <- (string_of_list_ascii_of_string a), <- (string_of_list_ascii_of_string b). unfold chars in H. rewrite H. reflexivity. Qed.
Lemma chars_of l : chars (string_of_list_ascii l) = l. Proof. apply list_ascii_of_string_of_list_ascii. Qed.
Lemma bind_some {A B} (x : option A) (f : A -> option B) y : bind x f = Some y <-> exists a, x = Some a /\ f a = Some y.
Proof. destruct x; cbn; split; intro H; [eauto|destruct H as (? & E & ?); injection E as ->; assumption|discriminate|destruct H as (? & ? & ?); discriminate]. Qed.
Lemma mapM_some {A B} (f : A -> option B) l : forall l', mapM f l = Some l' <-> Forall2 (fun x y => f x = Some y) l l'.
Proof.
  induction l as [|x l IH]; intro l'; cbn; [split; intro H; [injection H as <-; constructor|inversion H; reflexivity]|].
  rewrite bind_some. split.
  - intros (y & E & H). apply bind_some in H. destruct H as (ys & F & H). injection H as <-. constructor; [exact E|apply IH; exact F].
  - intro H. inversion H as [|? y ? ys E F]; subst. exists y. split; [exact E|]. apply IH in F. rewrite F. reflexivity.
Qed.
Lemma F2_iff {A B} (P Q : A -> B -> Prop) l l' : (forall x y, P x y <-> Q x y) -> Forall2 P l l' <-> Forall2 Q l l'.
Proof. intro E. split; induction 1; constructor; try assumption; apply E; assumption. Qed.

(** strip *)
Lemma strip_chars s : chars (strip s) = rev (skip_spaces (rev (skip_spaces (chars s)))). Proof. apply chars_of. Qed.
Lemma skip_head s c r : skip_spaces s = c :: r -> ~ space c.
Proof.
  induction s as [|d s IH]; cbn; [discriminate|]. destruct (is_space d) eqn:D; [exact IH|]. intro H. injection H as -> ->. intro S. apply space_iff in S. congruence.
Qed.
Lemma strip_means s : means s (strip s).
Proof.
  unfold means. rewrite strip_chars. destruct (skip_split (chars s)) as (a & A & Ea). set (m := skip_spaces (chars s)) in *.
  destruct (skip_split (rev m)) as (b & B & Eb). split.
  - intros c r. split; intro H.
    + apply (skip_head (chars s) c (r ++ rev b)). fold m. assert (Em : m = rev (skip_spaces (rev m)) ++ rev b) by (apply (f_equal (@rev _)) in Eb; rewrite rev_involutive, rev_app_distr in Eb; exact Eb).
      rewrite Em, H. reflexivity.
    + apply (skip_head (rev m) c (rev r)). apply (f_equal (@rev _)) in H. rewrite rev_involutive, rev_app_distr in H. exact H.
  - exists a, (rev b). split; [exact A|]. split; [apply Forall_rev; exact B|]. rewrite Ea at 1. f_equal. apply (f_equal (@rev _)) in Eb. rewrite rev_involutive, rev_app_distr in Eb. exact Eb.
Qed.
Lemma means_fun s v w : means s v -> means s w -> v = w.
Proof.
  intros (T & a & b & A & B & E) (T' & a' & b' & A' & B' & E'). apply chars_inj.
  assert (K : forall v a b, trimmed v -> Forall space a -> Forall space b -> v <> [] -> rev (skip_spaces (rev (skip_spaces (a ++ v ++ b)))) = v).
  { clear. intros v a b T A B N. assert (N1 : match v ++ b with c :: _ => is_space c = false | [] => True end).
    { destruct v as [|c v]; [congruence|]. cbn. destruct (T c v) as [H _]. specialize (H eq_refl). destruct (is_space c) eqn:S; [apply space_iff in S; contradiction|reflexivity]. }
    rewrite (skip_app a (v ++ b) A N1).
    rewrite rev_app_distr. rewrite skip_app.
    - apply rev_involutive.
    - apply Forall_rev. exact B.
    - destruct (rev v) as [|c r] eqn:R; [reflexivity|]. apply (f_equal (@rev _)) in R. rewrite rev_involutive in R. cbn in R. destruct (T c (rev r)) as [_ H]. specialize (H R).
      destruct (is_space c) eqn:S; [apply space_iff in S; contradiction|reflexivity]. }
  assert (Z : forall v a b, trimmed v -> Forall space (a ++ v ++ b) -> v = []).
  { clear. intros v a b T F. destruct v as [|c v]; [reflexivity|]. exfalso. destruct (T c v) as [H _]. apply (H eq_refl). apply Forall_app in F. destruct F as [_ F]. inversion F; assumption. }
  destruct (chars v) as [|c r] eqn:V.
  - symmetry. apply (Z _ a' b' T'). rewrite <- E', E. cbn. apply Forall_app. split; assumption.
  - destruct (chars w) as [|c' r'] eqn:W.
    + apply (Z _ a b T). rewrite <- E, E'. cbn. apply Forall_app. split; assumption.
    + rewrite <- (K _ a b T A B) by discriminate. rewrite <- (K _ a' b' T' A' B') by discriminate. rewrite <- E, <- E'. reflexivity.
Qed.
Lemma strip_iff s v : strip s = v <-> means s v.
Proof. split; [intros <-; apply strip_means|]. intro H. apply (means_fun s); [apply strip_means|exact H]. Qed.
Lemma strip_strip s : strip (strip s) = strip s.
Proof. apply strip_iff. split; [apply strip_means|]. exists [], []. repeat split; try constructor. cbn. rewrite app_nil_r. reflexivity. Qed.

Lemma get_attr_some x k v : get_attr x k = Some v <-> attr_says x k v.
Proof.
  unfold get_attr, attr_says. destruct (attr x k) as [s|]; [|split; [discriminate|intros (s & E & _); discriminate]]. split.
  - intro H. injection H as <-. exists s. split; [reflexivity|apply strip_means].
  - intros (t & E & M). injection E as <-. apply strip_iff in M. rewrite M. reflexivity.
Qed.
Lemma get_attr_none x k : get_attr x k = None <-> attr x k = None.
Proof. unfold get_attr. destruct (attr x k); split; congruence. Qed.
Lemma get_text_iff x v : get_text x = v <-> text_says x v.
Proof.
  unfold get_text, text_says. destruct (text x) as [s|]; split.
  - intros <-. right. exists s. split; [reflexivity|apply strip_means].
  - intros [[E _]|(t & E & M)]; [discriminate|]. injection E as <-. apply strip_iff. exact M.
  - intros <-. left. split; reflexivity.
  - intros [[_ ->]|(t & E & _)]; [reflexivity|discriminate].
Qed.
Lemma strip_empty : strip "" = "". Proof. reflexivity. Qed.
Lemma strip_get_text x : strip (get_text x) = get_text x.
Proof. unfold get_text. destruct (text x); [apply strip_strip|reflexivity]. Qed.
Lemma pbool_iff v b : pbool v = Some b <-> is_bool v b.
Proof.
  unfold pbool, is_bool, chars. destruct (parse_bool (list_ascii_of_string v)) as [c| |] eqn:E.
  - split; [intro H; injection H as <-; apply main_bool; exact E|]. intro H. apply main_bool in H. rewrite E in H. injection H as ->. reflexivity.
  - split; [discriminate|]. intro H. apply main_bool in H. congruence.
  - split; [discriminate|]. intro H. apply main_bool in H. congruence.
Qed.
(** an optional attribute *)
Lemma attr_opt_iff {T} x k (f : string -> option T) (P : string -> T -> Prop) d v : (forall w u, f w = Some u <-> P w u) ->
  (match attr x k with None => Some d | Some s => f (strip s) end = Some v <-> attr_opt x k P d v).
Proof.
  intro F. unfold attr_opt, attr_says. destruct (attr x k) as [s|] eqn:A; split.
  - intro H. right. exists (strip s). split; [exists s; split; [reflexivity|apply strip_means]|apply F; exact H].
  - intros [[E _]|(w & (t & E & M) & H)]; [discriminate|]. injection E as <-. apply strip_iff in M. rewrite M. apply F. exact H.
  - intro H. injection H as <-. left. split; reflexivity.
  - intros [[_ ->]|(w & (t & E & _) & _)]; [reflexivity|discriminate].
Qed.

(** numbers *)
Definition isdigit (c : ascii) : bool := match digit_of c with Some _ => true | None => false end.
Lemma value_digits l : forall acc, (exists v, LexProofs.value acc l = Some v) <-> Forall (fun c => isdigit c = true) l.
Proof.
  induction l as [|c l IH]; intro acc; cbn; [split; [constructor|eexists; reflexivity]|]. unfold isdigit at 1. destruct (digit_of c) as [d|] eqn:D.
  - rewrite IH. split; [intro H; constructor; [rewrite D; reflexivity|exact H]|intro H; inversion H; assumption].
  - split; [intros (v & E); discriminate|]. intro H. inversion H as [|? ? C]; subst. rewrite D in C. discriminate.
Qed.
Lemma strto_digits s v : s <> [] -> LexProofs.value 0 s = Some v -> strto s = Some (false, v, []).
Proof.
  intros N V. destruct s as [|c r]; [congruence|]. unfold strto. assert (D : exists d, digit_of c = Some d) by (cbn in V; destruct (digit_of c); [eauto|discriminate]). destruct D as (d & D).
  destruct (digit_not_space _ _ D) as (S & P & M). cbn [skip_spaces]. rewrite S.
  assert (E : match c with "-"%char => (true, r) | "+"%char => (false, r) | _ => (false, c :: r) end = (false, c :: r)).
  { destruct c as [[] [] [] [] [] [] [] []]; try reflexivity; congruence. }
  assert (E2 : (match c :: r with "-"%char :: r0 => (true, r0) | "+"%char :: r0 => (false, r0) | _ => (false, c :: r) end) = (false, c :: r)) by exact E.
  rewrite E2, D. apply take_value in V. rewrite V. reflexivity.
Qed.
Lemma positive_iff s n : positive s = Some n <-> is_positive s n.
Proof.
  unfold positive, is_positive, chars. set (l := list_ascii_of_string s).
  assert (R : regex_match l positive_re = true <-> exists v, numeral l v /\ forall r, l <> "0"%char :: r).
  { rewrite match_mt. unfold positive_re. rewrite cat_inv. split.
    - intros (x & y & E & X & Y). inversion X as [|f c Hc| | | | |]; subst. apply star_cls in Y. rewrite E.
      assert (V : exists v, LexProofs.value 0 ([c] ++ y) = Some v).
      { apply value_digits. constructor; [|exact Y]. unfold isdigit. destruct (digit_of c); [reflexivity|discriminate]. }
      destruct V as (v & V). exists v. split; [apply numeral_value; split; [discriminate|exact V]|]. intros r E0. injection E0 as -> _. discriminate.
    - intros (v & Nm & Z). apply numeral_value in Nm. destruct Nm as [N V]. destruct l as [|c r]; [congruence|]. exists [c], r. split; [reflexivity|].
      assert (Ds : Forall (fun c => isdigit c = true) (c :: r)) by (apply (value_digits _ 0); eexists; exact V). inversion Ds as [|? ? C Ds']; subst. split.
      + constructor. unfold isdigit in C. destruct (digit_of c) as [d|] eqn:D; [|discriminate]. pose proof (digit_nonneg _ _ D). apply Z.leb_le.
        assert (d <> 0); [|lia]. intros ->. apply (Z r). f_equal. clear - D. revert D. destruct c as [[] [] [] [] [] [] [] []]; vm_compute; intros H; try discriminate; reflexivity.
      + apply star_cls. exact Ds'. }
  unfold std_stoi, std_stol. fold l. destruct (regex_match l positive_re) eqn:M.
  - destruct (proj1 R eq_refl) as (v & Nm & Z). pose proof Nm as Nm'. apply numeral_value in Nm. destruct Nm as [N V]. rewrite (strto_digits l v N V). cbn [fst snd].
    assert (P : 0 <= v) by (eapply value_nonneg; [|exact V]; lia).
    assert (U : forall m, numeral l m -> m = v) by (intros m Hm; apply numeral_value in Hm; destruct Hm as [_ Hm]; congruence).
    destruct ((v <? long_min) || (long_max <? v)) eqn:L1.
    + split; [discriminate|]. intros (Hn & _ & B). apply U in Hn. subst. apply orb_true_iff in L1. unfold long_min, long_max in L1. rewrite !Z.ltb_lt in L1. change (2 ^ 63) with 9223372036854775808 in L1. change (2 ^ 31) with 2147483648 in B. lia.
    + destruct ((v <? - 2 ^ 31) || (int_max <? v)) eqn:L2.
      * split; [discriminate|]. intros (Hn & _ & B). apply U in Hn. subst. apply orb_true_iff in L2. unfold int_max in L2. rewrite !Z.ltb_lt in L2. change (2 ^ 31) with 2147483648 in *. lia.
      * apply orb_false_iff in L2. unfold int_max in L2. rewrite !Z.ltb_ge in L2. split; [intro H; injection H as <-; repeat split; try assumption; change (2 ^ 31) with 2147483648 in *; lia|].
        intros (Hn & _). apply U in Hn. subst. reflexivity.
  - split; [discriminate|]. intros (Hn & Z & _). assert (false = true) by (apply R; eauto). discriminate.
Qed.
