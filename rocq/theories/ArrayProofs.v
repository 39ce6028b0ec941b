(** ArrayProofs.v *)
From Coq Require Import List Bool Ascii String ZArith Lia.
From Verif Require Import LexModel LexSpec LexProofs ArrayModel ArraySpec.
Import ListNotations.
Open Scope list_scope.

Inductive mt : re -> list ascii -> Prop :=
| mt_eps : mt Eps []
| mt_cls f c : f c = true -> mt (Cls f) [c]
| mt_cat a b x y : mt a x -> mt b y -> mt (Cat a b) (x ++ y)
| mt_l a b x : mt a x -> mt (Alt a b) x
| mt_r a b x : mt b x -> mt (Alt a b) x
| mt_nil a : mt (Star a) []
| mt_cons a x y : mt a x -> mt (Star a) y -> mt (Star a) (x ++ y).

Lemma nullable_mt r : nullable r = true <-> mt r [].
Proof.
  induction r; cbn; split; intro H; try discriminate; try (inversion H; subst; fail); try (constructor; fail); try reflexivity.
  - apply andb_true_iff in H. change (@nil ascii) with (@nil ascii ++ []). constructor; [apply IHr1|apply IHr2]; tauto.
  - inversion H as [| |? ? x y A B E1 E2| | | |]; subst. apply app_eq_nil in E2. destruct E2; subst. apply andb_true_iff. rewrite IHr1, IHr2. tauto.
  - apply orb_true_iff in H. destruct H; [apply mt_l; tauto|apply mt_r; tauto].
  - apply orb_true_iff. inversion H; subst; [left; tauto|right; tauto].
Qed.
Lemma deriv_mt r c : forall s, mt (deriv c r) s <-> mt r (c :: s).
Proof.
  induction r; intro s; cbn.
  - split; intro H; inversion H.
  - split; intro H; inversion H.
  - destruct (f c) eqn:F; split; intro H; inversion H; subst; try constructor; try assumption; congruence.
  - assert (P : mt (Cat (deriv c r1) r2) s -> mt (Cat r1 r2) (c :: s)).
    { intro H. inversion H as [| |? ? x y A B E1 E2| | | |]; subst. apply IHr1 in A. change (c :: x ++ y) with ((c :: x) ++ y). constructor; assumption. }
    assert (Q : mt (Cat r1 r2) (c :: s) -> mt (Cat (deriv c r1) r2) s \/ (mt r1 [] /\ mt r2 (c :: s))).
    { intro H. inversion H as [| |? ? x y A B E1 E2| | | |]; subst. destruct x as [|d x]; cbn in *; [subst; right; split; assumption|].
      injection E2 as -> <-. left. constructor; [apply IHr1; exact A|exact B]. }
    destruct (nullable r1) eqn:N.
    + apply nullable_mt in N. split; intro H.
      * inversion H; subst; [apply P; assumption|]. change (c :: s) with ([] ++ c :: s). constructor; [exact N|apply IHr2; assumption].
      * apply Q in H. destruct H as [H|[_ H]]; [apply mt_l; exact H|apply mt_r, IHr2, H].
    + split; [exact P|]. intro H. apply Q in H. destruct H as [H|[H _]]; [exact H|]. apply nullable_mt in H. congruence.
  - split; intro H; inversion H; subst; [apply mt_l, IHr1|apply mt_r, IHr2|apply mt_l, IHr1|apply mt_r, IHr2]; assumption.
  - split; intro H.
    + inversion H as [| |? ? x y A B E1 E2| | | |]; subst. apply IHr in A. change (c :: x ++ y) with ((c :: x) ++ y). constructor; assumption.
    + remember (Star r) as t eqn:T. remember (c :: s) as z eqn:Z. revert s Z. induction H as [| | | | | |a x y A _ B IB]; intros s Z; try discriminate.
      injection T as ->. destruct x as [|d x]; cbn in Z; [apply IB; [reflexivity|exact Z]|]. injection Z as -> <-. constructor; [apply IHr; exact A|exact B].
Qed.
Lemma match_mt s : forall r, regex_match s r = true <-> mt r s.
Proof. induction s as [|c s IH]; intro r; cbn; [apply nullable_mt|]. rewrite IH. apply deriv_mt. Qed.

Lemma cat_inv a b s : mt (Cat a b) s <-> exists x y, s = x ++ y /\ mt a x /\ mt b y.
Proof. split; [intro H; inversion H; subst; eauto|]. intros (x & y & -> & A & B). constructor; assumption. Qed.
Lemma chr_inv c s : mt (chr c) s <-> s = [c].
Proof.
  split.
  - intro H. inversion H; subst. match goal with K : Ascii.eqb _ _ = true |- _ => apply Ascii.eqb_eq in K; subst end. reflexivity.
  - intros ->. constructor. apply Ascii.eqb_refl.
Qed.
Lemma opt_inv r s : mt (opt r) s <-> s = [] \/ mt r s.
Proof. split; [intro H; inversion H; subst; [left; inversion H3; reflexivity|right; assumption]|]. intros [->|H]; [apply mt_l; constructor|apply mt_r; exact H]. Qed.
Lemma star_inv r s : mt (Star r) s <-> exists l, Forall (mt r) l /\ s = List.concat l.
Proof.
  split.
  - intro H. remember (Star r) as t. induction H as [| | | | |a|a x y A _ B IB]; try discriminate; [exists []; split; [constructor|reflexivity]|].
    injection Heqt as ->. destruct (IB eq_refl) as (l & L & ->). exists (x :: l). split; [constructor; assumption|reflexivity].
  - intros (l & L & ->). induction L; cbn; constructor; assumption.
Qed.
Lemma star_cls f s : mt (Star (Cls f)) s <-> Forall (fun c => f c = true) s.
Proof.
  rewrite star_inv. split.
  - intros (l & L & ->). induction L as [|x l X _ IH]; cbn; [constructor|]. inversion X; subst. constructor; assumption.
  - induction 1 as [|c s C _ (l & L & ->)]; [exists []; split; [constructor|reflexivity]|]. exists ([c] :: l). split; [constructor; [constructor; exact C|exact L]|reflexivity].
Qed.
Lemma plus_cls f s : mt (plus (Cls f)) s <-> s <> [] /\ Forall (fun c => f c = true) s.
Proof.
  unfold plus. rewrite cat_inv. split.
  - intros (x & y & -> & A & B). inversion A; subst. apply star_cls in B. split; [discriminate|]. constructor; assumption.
  - intros [N F]. destruct s as [|c s]; [congruence|]. inversion F; subst. exists [c], s. repeat split; [constructor; assumption|apply star_cls; assumption].
Qed.
Lemma sp_inv s : mt sp s <-> Forall space s.
Proof. unfold sp. rewrite star_cls. split; apply Forall_impl; intros c; apply space_iff. Qed.

Definition clean (c : ascii) : Prop := negb (bracket c) = true.
Lemma array_mt s : mt array_regex s <-> exists b, s = "["%char :: b ++ ["]"%char] /\ Forall clean b.
Proof.
  assert (SC : forall w, Forall space w -> Forall clean w).
  { apply Forall_impl. intros c C. apply space_iff in C. revert C. destruct c as [[] [] [] [] [] [] [] []]; vm_compute; intros; try discriminate; reflexivity. }
  unfold array_regex. rewrite cat_inv. split.
  - intros (x & y & -> & X & Y). apply chr_inv in X as ->. apply cat_inv in Y. destruct Y as (w & y' & -> & W & Y). apply sp_inv, SC in W.
    apply cat_inv in Y. destruct Y as (o & z & -> & O & Z). apply chr_inv in Z as ->. exists (w ++ o). split; [cbn; rewrite !app_assoc; reflexivity|].
    apply Forall_app. split; [exact W|]. apply opt_inv in O. destruct O as [->|O]; [constructor|].
    apply cat_inv in O. destruct O as (p & q & -> & P & Q). apply star_cls in P. apply Forall_app. split; [exact P|].
    apply cat_inv in Q. destruct Q as (w2 & q' & -> & W2 & Q). apply sp_inv, SC in W2. apply Forall_app. split; [exact W2|].
    apply star_inv in Q. destruct Q as (l & L & ->). induction L as [|e l E _ IH]; cbn; [constructor|]. apply Forall_app. split; [|exact IH].
    apply cat_inv in E. destruct E as (c & e' & -> & C & E). apply chr_inv in C as ->. apply cat_inv in E. destruct E as (w3 & e2 & -> & W3 & E).
    apply cat_inv in E. destruct E as (n & w4 & -> & N & W4). apply plus_cls in N. apply sp_inv, SC in W3, W4. destruct N as [_ N].
    constructor; [reflexivity|]. repeat (apply Forall_app; split); assumption.
  - intros (b & -> & B). exists ["["%char], (b ++ ["]"%char]). split; [reflexivity|]. split; [apply chr_inv; reflexivity|].
    change (b ++ ["]"%char]) with ([] ++ b ++ ["]"%char]). constructor; [apply sp_inv; constructor|]. constructor; [|apply chr_inv; reflexivity].
    apply opt_inv. right. rewrite <- (app_nil_r b). constructor; [apply star_cls; exact B|]. change (@nil ascii) with (@nil ascii ++ []). constructor; [apply sp_inv|]; constructor.
Qed.
Lemma empty_mt s : mt empty_or_spaces_regex s <-> exists a, Forall space a /\ s = "["%char :: a ++ ["]"%char].
Proof.
  unfold empty_or_spaces_regex. rewrite cat_inv. split.
  - intros (x & y & -> & X & Y). apply chr_inv in X as ->. apply cat_inv in Y. destruct Y as (a & z & -> & A & Z). apply chr_inv in Z as ->. apply sp_inv in A. exists a. split; [exact A|reflexivity].
  - intros (a & A & ->). exists ["["%char], (a ++ ["]"%char]). repeat split; [apply chr_inv; reflexivity|]. constructor; [apply sp_inv; exact A|apply chr_inv; reflexivity].
Qed.

Definition sep_tok : re := Cat sp (Cat (chr ",") (Cat sp (plus tok))).
Lemma value_tok t : value t <-> (t <> [] /\ Forall (fun c => negb (Ascii.eqb "," c || is_space c) = true) t) /\ Forall clean t.
Proof.
  unfold value. rewrite and_assoc. apply and_iff_compat_l.
  split.
  - intros H. split; revert H; apply Forall_impl; intros c (S & C & L & R).
    + apply negb_true_iff, orb_false_iff. split; [apply Ascii.eqb_neq; congruence|]. destruct (is_space c) eqn:E; [|reflexivity]. apply space_iff in E. contradiction.
    + unfold clean, bracket. apply negb_true_iff, orb_false_iff. split; apply Ascii.eqb_neq; congruence.
  - intros [A B]. induction A as [|c t C _ IH]; [constructor|]. inversion B as [|? ? D E]; subst. constructor; [|apply IH; exact E].
    apply negb_true_iff, orb_false_iff in C. unfold clean, bracket in D. apply negb_true_iff, orb_false_iff in D. destruct C as [C1 C2], D as [D1 D2].
    apply Ascii.eqb_neq in C1, D1, D2. repeat split; try congruence. intro S. apply space_iff in S. congruence.
Qed.
Lemma pieces_values l : forall w t v, Forall space w -> Forall (mt sep_tok) l -> Forall space v ->
  mt (plus tok) t -> Forall clean (w ++ t ++ List.concat l ++ v) -> exists ts, values ts (w ++ t ++ List.concat l ++ v).
Proof.
  induction l as [|e l IH]; intros w t v W L V Tk C; cbn.
  - apply plus_cls in Tk. exists [t]. constructor; [exact W| |exact V]. apply value_tok. split; [exact Tk|]. apply Forall_app in C. destruct C as [_ C]. apply Forall_app in C. tauto.
  - inversion L as [|? ? E L']; subst. apply cat_inv in E. destruct E as (a & e1 & -> & A & E). apply cat_inv in E. destruct E as (c & e2 & -> & Cc & E).
    apply chr_inv in Cc as ->. apply cat_inv in E. destruct E as (b & t2 & -> & B & T2). apply sp_inv in A, B. cbn [List.concat] in C.
    assert (K : w ++ t ++ (((a ++ ["," %char] ++ b ++ t2) ++ List.concat l) ++ v) = w ++ t ++ a ++ ","%char :: (b ++ t2 ++ List.concat l ++ v)).
    { cbn. rewrite <- !app_assoc. cbn. rewrite <- !app_assoc. reflexivity. }
    rewrite K in C |- *. assert (C2 : Forall clean t /\ Forall clean (b ++ t2 ++ List.concat l ++ v)).
    { apply Forall_app in C. destruct C as [_ C]. apply Forall_app in C. destruct C as [Ct C]. split; [exact Ct|]. apply Forall_app in C. destruct C as [_ C]. inversion C; assumption. }
    destruct C2 as [Ct C2]. destruct (IH b t2 v B L' V T2 C2) as (ts & TS). exists (t :: ts). constructor; [exact W| |exact A|exact TS].
    apply value_tok. split; [apply plus_cls; exact Tk|exact Ct].
Qed.
Lemma comma_values b : Forall clean b -> mt comma_separated_regex ("["%char :: b ++ ["]"%char]) -> Forall space b \/ exists ts, values ts b.
Proof.
  intros C H. unfold comma_separated_regex in H. apply cat_inv in H. destruct H as (x & y & E & X & Y). apply chr_inv in X as ->. injection E as <-.
  apply cat_inv in Y. destruct Y as (w & y2 & E & W & Y). apply cat_inv in Y. destruct Y as (o & y3 & -> & O & Y). apply cat_inv in Y. destruct Y as (v & z & -> & V & Z). apply chr_inv in Z as ->.
  rewrite !app_assoc in E. apply app_inj_tail in E. destruct E as [-> _]. apply sp_inv in W, V. rewrite <- app_assoc in *. apply opt_inv in O. destruct O as [->|O].
  - left. apply Forall_app. split; assumption.
  - right. apply cat_inv in O. destruct O as (t & r & -> & Tk & R). apply star_inv in R. destruct R as (l & L & ->). rewrite <- app_assoc in *. eapply pieces_values; eassumption.
Qed.
Lemma values_mt ts s : values ts s -> exists w t l v, s = w ++ t ++ List.concat l ++ v /\ Forall space w /\ Forall (mt sep_tok) l /\ Forall space v /\ mt (plus tok) t.
Proof.
  induction 1 as [a t b A Tv B|a t b ts s A Tv B _ (w & t' & l & v & -> & W & L & V & T')].
  - exists a, t, [], b. cbn. repeat split; try assumption; try constructor. apply plus_cls. apply value_tok in Tv. tauto.
  - exists a, t, ((b ++ ["," %char] ++ w ++ t') :: l), v. split; [cbn; rewrite <- !app_assoc; cbn; rewrite <- !app_assoc; reflexivity|].
    apply value_tok in Tv. destruct Tv as [Tv _]. apply plus_cls in Tv. repeat split; try assumption. constructor; [|exact L].
    unfold sep_tok. constructor; [apply sp_inv; exact B|]. constructor; [apply chr_inv; reflexivity|]. constructor; [apply sp_inv; exact W|exact T'].
Qed.
Lemma space_clean w : Forall space w -> Forall clean w.
Proof. apply Forall_impl. intros c C. apply space_iff in C. revert C. destruct c as [[] [] [] [] [] [] [] []]; vm_compute; intros; try discriminate; reflexivity. Qed.
Lemma values_clean ts s : values ts s -> Forall clean s.
Proof.
  induction 1 as [a t b A Tv B|a t b ts s A Tv B _ IH]; apply value_tok in Tv; destruct Tv as [_ Tv]; apply space_clean in A, B;
    repeat (apply Forall_app; split); try assumption. constructor; [reflexivity|exact IH].
Qed.
Lemma values_comma ts s : values ts s -> mt comma_separated_regex ("["%char :: s ++ ["]"%char]).
Proof.
  intro H. apply values_mt in H. destruct H as (w & t & l & v & -> & W & L & V & T'). unfold comma_separated_regex.
  change ("["%char :: (w ++ t ++ List.concat l ++ v) ++ ["]"%char]) with (["["%char] ++ (w ++ t ++ List.concat l ++ v) ++ ["]"%char]). constructor; [apply chr_inv; reflexivity|].
  rewrite <- app_assoc. constructor; [apply sp_inv; exact W|]. replace ((t ++ List.concat l ++ v) ++ ["]"%char]) with ((t ++ List.concat l) ++ v ++ ["]"%char]) by (rewrite <- !app_assoc; reflexivity).
  constructor; [|constructor; [apply sp_inv; exact V|apply chr_inv; reflexivity]]. apply opt_inv. right. constructor; [exact T'|]. apply star_inv. exists l. split; [exact L|reflexivity].
Qed.
Lemma value_char_iff c : value_char c = true <-> ~ space c /\ c <> ","%char /\ c <> "["%char /\ c <> "]"%char.
Proof.
  unfold value_char, bracket. rewrite negb_true_iff, !orb_false_iff, !Ascii.eqb_neq. split.
  - intros ((A & B) & C & D). repeat split; try congruence. intro S. apply space_iff in S. congruence.
  - intros (A & B & C & D). repeat split; try congruence. destruct (is_space c) eqn:E; [|reflexivity]. apply space_iff in E. contradiction.
Qed.
Lemma runs_skip w s : Forall space w -> runs [] (w ++ s) = runs [] s.
Proof.
  induction 1 as [|c w C _ IH]; [reflexivity|]. cbn. destruct (value_char c) eqn:E; [|exact IH]. apply value_char_iff in E. tauto.
Qed.
Lemma runs_word t : forall cur s, Forall (fun c => value_char c = true) t -> runs cur (t ++ s) = runs (rev t ++ cur) s.
Proof.
  induction t as [|c t IH]; intros cur s H; [reflexivity|]. inversion H as [|? ? C T']; subst. cbn. rewrite C, IH by exact T'. rewrite <- app_assoc. reflexivity.
Qed.
Lemma runs_end cur c s : cur <> [] -> value_char c = false -> runs cur (c :: s) = rev cur :: runs [] s.
Proof. intros N C. cbn. rewrite C. destruct cur; [congruence|reflexivity]. Qed.
Lemma runs_values ts s : values ts s -> runs [] (s ++ ["]"%char]) = ts.
Proof.
  assert (SP : forall t b c r, value t -> Forall space b -> value_char c = false -> runs [] (t ++ b ++ c :: r) = t :: runs [] (match b with [] => r | _ => c :: r end)).
  { intros t b c r [N V] B C. assert (V' : Forall (fun c => value_char c = true) t) by (revert V; apply Forall_impl; intro; apply value_char_iff).
    rewrite runs_word by exact V'. rewrite app_nil_r. assert (R : rev t <> []) by (intro E; apply (f_equal (@rev _)) in E; rewrite rev_involutive in E; contradiction).
    destruct b as [|d b]; cbn [app].
    - rewrite runs_end by assumption. rewrite rev_involutive. reflexivity.
    - inversion B as [|? ? D B']; subst. assert (ND : value_char d = false) by (destruct (value_char d) eqn:E; [apply value_char_iff in E; tauto|reflexivity]).
      rewrite runs_end by assumption.
      rewrite rev_involutive, runs_skip by exact B'. reflexivity. }
  induction 1 as [a t b A Tv B|a t b ts s A Tv B _ IH].
  - rewrite <- !app_assoc, runs_skip by exact A. rewrite SP by (try assumption; reflexivity). f_equal. destruct b; reflexivity.
  - rewrite <- !app_assoc, runs_skip by exact A. rewrite <- app_comm_cons, SP by (try assumption; reflexivity). f_equal. destruct b; exact IH.
Qed.
Lemma values_nonspace ts s : values ts s -> ~ Forall space s.
Proof.
  assert (K : forall t, value t -> ~ Forall space t).
  { intros t [N V] F. destruct t as [|c t]; [congruence|]. inversion V; inversion F; subst. tauto. }
  induction 1 as [a t b A Tv B|a t b ts s A Tv B H IH]; intro F; apply Forall_app in F; destruct F as [_ F]; apply Forall_app in F; destruct F as [F _]; apply (K _ Tv F).
Qed.
Lemma values_some ts s : values ts s -> ts <> [].
Proof. destruct 1; discriminate. Qed.

Lemma body_inj a b : "["%char :: a ++ ["]"%char] = "["%char :: b ++ ["]"%char] -> a = b.
Proof. intro H. injection H as H. apply app_inj_tail in H. tauto. Qed.
Section Main.
Context {T : Type}.
Variable conv : list ascii -> res T.
Lemma convert_ok l : forall vs, convert _ conv l = Ok vs <-> Forall2 (fun t v => conv t = Ok v) l vs.
Proof.
  induction l as [|x l IH]; intro vs; cbn.
  - split; intro H; [injection H as <-; constructor|inversion H; reflexivity].
  - split.
    + destruct (conv x) eqn:E; try discriminate. destruct (convert _ conv l) eqn:F; try discriminate. intro H. injection H as <-. constructor; [exact E|apply IH; reflexivity].
    + intro H. inversion H; subst. match goal with K : conv x = Ok _ |- _ => rewrite K end. match goal with K : Forall2 _ l _ |- _ => apply IH in K; rewrite K end. reflexivity.
Qed.
Lemma main_array s vs : parse_array _ conv s = Ok vs <-> exists ts, flat_array ts s /\ Forall2 (fun t v => conv t = Ok v) ts vs.
Proof.
  unfold parse_array. split.
  - destruct (regex_match s array_regex) eqn:A; [|discriminate]. cbn. apply match_mt, array_mt in A. destruct A as (b & -> & C).
    destruct (regex_match _ empty_or_spaces_regex) eqn:B.
    { apply match_mt, empty_mt in B. destruct B as (a & W & E). apply body_inj in E. subst. intro H. injection H as <-. exists []. split; [constructor; exact W|constructor]. }
    destruct (regex_match _ comma_separated_regex) eqn:D; [|discriminate]. cbn [negb]. apply match_mt, (comma_values _ C) in D. destruct D as [D|(ts & TS)].
    { exfalso. assert (K : regex_match ("["%char :: b ++ ["]"%char]) empty_or_spaces_regex = true) by (apply match_mt, empty_mt; exists b; split; [exact D|reflexivity]). congruence. }
    unfold str_eqb. destruct (list_eq_dec ascii_dec _ _) as [E|_].
    { apply (body_inj b []) in E. subst. exfalso. apply (values_nonspace _ _ TS). apply Forall_nil. }
    change (runs [] ("["%char :: b ++ ["]"%char])) with (runs [] (b ++ ["]"%char])). rewrite (runs_values _ _ TS). intro H. exists ts. split; [constructor; exact TS|apply convert_ok; exact H].
  - intros (ts & F & V). destruct F as [a W|ts b TS].
    + inversion V; subst. assert (E : regex_match ("["%char :: a ++ ["]"%char]) empty_or_spaces_regex = true) by (apply match_mt, empty_mt; exists a; split; [exact W|reflexivity]).
      assert (A : regex_match ("["%char :: a ++ ["]"%char]) array_regex = true) by (apply match_mt, array_mt; exists a; split; [reflexivity|apply space_clean; exact W]). rewrite A, E. reflexivity.
    + assert (A : regex_match ("["%char :: b ++ ["]"%char]) array_regex = true) by (apply match_mt, array_mt; exists b; split; [reflexivity|eapply values_clean; exact TS]).
      assert (E : regex_match ("["%char :: b ++ ["]"%char]) empty_or_spaces_regex = false).
      { destruct (regex_match _ empty_or_spaces_regex) eqn:E; [|reflexivity]. apply match_mt, empty_mt in E. destruct E as (a & W & E). apply body_inj in E. subst. exfalso. eapply values_nonspace; eassumption. }
      assert (D : regex_match ("["%char :: b ++ ["]"%char]) comma_separated_regex = true) by (apply match_mt; eapply values_comma; exact TS). rewrite A, E, D. cbn [negb].
      unfold str_eqb. destruct (list_eq_dec ascii_dec _ _) as [X|_].
      { apply (body_inj b []) in X. subst. exfalso. apply (values_nonspace _ _ TS). apply Forall_nil. }
      change (runs [] ("["%char :: b ++ ["]"%char])) with (runs [] (b ++ ["]"%char])). rewrite (runs_values _ _ TS). apply convert_ok. exact V.
Qed.
End Main.
Lemma array_unique ts ts' s : flat_array ts s -> flat_array ts' s -> ts = ts'.
Proof.
  intros A B. assert (P : forall ts s, flat_array ts s -> parse_string_array s = Ok ts).
  { intros t u H. apply main_array. exists t. split; [exact H|]. clear. induction t; constructor; try reflexivity; assumption. }
  apply P in A, B. congruence.
Qed.
Lemma main_strings s ts : parse_string_array s = Ok ts <-> flat_array ts s.
Proof.
  unfold parse_string_array. rewrite main_array. split.
  - intros (t & F & V). replace ts with t; [exact F|]. clear F. induction V as [|? ? ? ? E _ IH]; [reflexivity|]. injection E as ->. f_equal. exact IH.
  - intro F. exists ts. split; [exact F|]. clear. induction ts; constructor; try reflexivity; assumption.
Qed.
Lemma main_numbers {V} (number : list ascii -> option V) s vs : parse_number_array number s = Ok vs <-> exists ts, flat_array ts s /\ Forall2 (fun t v => number t = Some v) ts vs.
Proof.
  unfold parse_number_array. rewrite main_array. split; intros (ts & F & H); exists ts; (split; [exact F|]); revert H; clear; induction 1 as [|t v ? ? E _ IH]; constructor; try exact IH.
  - destruct (number t) as [u|]; [|discriminate]. injection E as ->. reflexivity.
  - rewrite E. reflexivity.
Qed.
Lemma number_never_range {V} (number : list ascii -> option V) s : parse_number_array number s <> OutOfRange.
Proof.
  unfold parse_number_array, parse_array. repeat match goal with |- context [if ?b then _ else _] => destruct b end; try discriminate.
  induction (runs [] s) as [|x l IH]; cbn; [discriminate|]. destruct (number x); [|discriminate]. destruct (convert _ _ l); try discriminate. exact IH.
Qed.
Lemma main_bools s bs : parse_bool_array s = Ok bs <-> exists ts, flat_array ts s /\ Forall2 (fun t (b : bool) => case_variant t (if b then "true" else "false")) ts bs.
Proof.
  unfold parse_bool_array. rewrite main_array. split; intros (ts & F & H); exists ts; (split; [exact F|]); revert H; clear; induction 1 as [|t v ? ? E _ IH]; constructor; try exact IH; apply main_bool; exact E.
Qed.
Lemma main_invalid {T} (conv : list ascii -> res T) s : (forall ts, ~ flat_array ts s) -> parse_array _ conv s = InvalidArgument.
Proof.
  intro N. assert (P : parse_string_array s = InvalidArgument \/ exists ts, parse_string_array s = Ok ts).
  { unfold parse_string_array, parse_array. repeat match goal with |- context [if ?b then _ else _] => destruct b end; try (left; reflexivity); try (right; eexists; reflexivity).
    right. induction (runs [] s) as [|x l (ts & IH)]; cbn; [eexists; reflexivity|]. rewrite IH. eexists; reflexivity. }
  destruct P as [P|(ts & P)]; [|exfalso; apply (N ts), main_strings, P]. revert P. unfold parse_string_array, parse_array.
  repeat match goal with |- context [if ?b then _ else _] => destruct b end; try reflexivity; try discriminate.
  assert (K : forall l, convert _ (fun x => Ok x) l <> (InvalidArgument : res (list (list ascii)))).
  { induction l as [|x l IH]; cbn; [discriminate|]. destruct (convert _ _ l); try discriminate. congruence. }
  intro P. exfalso. exact (K _ P).
Qed.
