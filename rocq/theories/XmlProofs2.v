(** XmlProofs2.v *)
From Coq Require Import List Bool String Ascii ZArith SpecFloat Lia.
From Verif Require Import Base LexModel LexSpec LexProofs ArrayModel ArraySpec ArrayProofs LimitsModel ParserModel XmlTypes XmlModel XmlSpec XmlProofs.
Import ListNotations.
Open Scope string_scope.
Open Scope Z_scope.
Open Scope list_scope.

Definition stops (r : list ascii) : Prop := forall c t d, r = c :: t -> ~ digit c d.
Lemma take_split s : forall acc v r, take_digits acc s = (v, r) <-> exists a, s = a ++ r /\ LexProofs.value acc a = Some v /\ stops r.
Proof.
  induction s as [|c s IH]; intros acc v r; cbn.
  - split.
    + intro H. injection H as <- <-. exists []. repeat split. intros c t d E. discriminate.
    + intros (a & E & V & _). symmetry in E. apply app_eq_nil in E. destruct E as [-> ->]. cbn in V. injection V as <-. reflexivity.
  - destruct (digit_of c) as [d|] eqn:D.
    + rewrite IH. split.
      * intros (a & -> & V & S). exists (c :: a). cbn. rewrite D. repeat split; assumption.
      * intros (a & E & V & S). destruct a as [|c' a]; cbn in E.
        { exfalso. subst r. apply (S c s d eq_refl). apply digit_iff. exact D. }
        injection E as <- ->. cbn in V. rewrite D in V. exists a. repeat split; assumption.
    + split.
      * intro H. injection H as <- <-. exists []. repeat split. intros c' t d E. injection E as <- <-. intro X. apply digit_iff in X. congruence.
      * intros (a & E & V & S). destruct a as [|c' a]; [cbn in *; injection V as <-; subst; reflexivity|]. injection E as <- ->. cbn in V. rewrite D in V. discriminate.
Qed.
Lemma strto_core s neg v r : (match s with c :: _ => match digit_of c with Some _ => let '(v, r) := take_digits 0 s in Some (neg : bool, v, r) | None => None end | [] => None end) = Some (neg, v, r) <->
  exists a, s = a ++ r /\ numeral a v /\ stops r.
Proof.
  split.
  - destruct s as [|c s]; [discriminate|]. destruct (digit_of c) as [d|] eqn:D; [|discriminate]. destruct (take_digits 0 (c :: s)) as [v' r'] eqn:T. intro H. injection H as <- <-.
    apply take_split in T. destruct T as (a & E & V & S). exists a. repeat split; try assumption. apply numeral_value. split; [|exact V]. intros ->. cbn in E. apply (S c s d); [symmetry; exact E|]. apply digit_iff. exact D.
  - intros (a & -> & Nm & S). apply numeral_value in Nm. destruct Nm as [N V]. destruct a as [|c a]; [congruence|]. cbn [app].
    assert (D : exists d, digit_of c = Some d) by (cbn in V; destruct (digit_of c); [eauto|discriminate]). destruct D as (d & D). rewrite D.
    assert (T : take_digits 0 (c :: a ++ r) = (v, r)) by (apply take_split; exists (c :: a); repeat split; assumption). rewrite T. reflexivity.
Qed.
Definition signed (neg : bool) (v : Z) := if neg then - v else v.
Lemma strto_prefix s n r : (exists neg v, strto s = Some (neg, v, r) /\ n = signed neg v) <-> exists a, s = a ++ r /\ integer a n /\ stops r.
Proof.
  split.
  - intros (neg & v & H & ->). unfold strto in H. destruct (skip_split s) as (w & W & E). set (t := skip_spaces s) in *. rewrite E.
    destruct t as [|c t].
    { discriminate. }
    assert (K : (exists u, c :: t = u ++ r /\ numeral u v /\ neg = false /\ stops r) \/ (exists u, t = u ++ r /\ c = "+"%char /\ numeral u v /\ neg = false /\ stops r) \/ (exists u, t = u ++ r /\ c = "-"%char /\ numeral u v /\ neg = true /\ stops r)).
    { destruct (ascii_dec c "-") as [->|NM].
      - right; right. assert (neg = true) as -> by (destruct t as [|x t']; [discriminate|]; destruct (digit_of x); [|discriminate]; destruct (take_digits 0 (x :: t')); injection H; congruence).
        apply strto_core in H. destruct H as (u & -> & Nm & S). exists u. repeat split; assumption.
      - destruct (ascii_dec c "+") as [->|NP].
        + right; left. assert (neg = false) as -> by (destruct t as [|x t']; [discriminate|]; destruct (digit_of x); [|discriminate]; destruct (take_digits 0 (x :: t')); injection H; congruence).
          apply strto_core in H. destruct H as (u & -> & Nm & S). exists u. repeat split; assumption.
        + left. assert (E2 : (match c :: t with "-"%char :: r0 => (true, r0) | "+"%char :: r0 => (false, r0) | _ => (false, c :: t) end) = (false, c :: t)).
          { destruct c as [[] [] [] [] [] [] [] []]; try reflexivity; congruence. }
          rewrite E2 in H. assert (neg = false) as -> by (destruct (digit_of c); [|discriminate]; destruct (take_digits 0 (c :: t)); injection H; congruence).
          apply (strto_core (c :: t)) in H. destruct H as (u & Eu & Nm & S). exists u. repeat split; assumption. }
    destruct K as [(u & -> & Nm & -> & S)|[(u & -> & -> & Nm & -> & S)|(u & -> & -> & Nm & -> & S)]].
    + exists (w ++ u). rewrite <- app_assoc. repeat split; try assumption. apply int_plain; assumption.
    + exists (w ++ "+"%char :: u). rewrite <- app_assoc. repeat split; try assumption. apply int_plus; assumption.
    + exists (w ++ "-"%char :: u). rewrite <- app_assoc. repeat split; try assumption. apply int_minus; assumption.
  - intros (a & -> & I & S). destruct I as [w u v W Nm|w u v W Nm|w u v W Nm].
    + exists false, v. split; [|reflexivity]. unfold strto. rewrite <- app_assoc. pose proof Nm as Nm'. apply numeral_value in Nm'. destruct Nm' as [N V]. destruct u as [|c u]; [congruence|].
      assert (D : exists d, digit_of c = Some d) by (cbn in V; destruct (digit_of c); [eauto|discriminate]). destruct D as (d & D). destruct (digit_not_space _ _ D) as (Sp & P & M).
      rewrite (skip_app w ((c :: u) ++ r) W Sp). cbn [app].
      assert (E2 : (match c :: u ++ r with "-"%char :: r0 => (true, r0) | "+"%char :: r0 => (false, r0) | _ => (false, c :: u ++ r) end) = (false, c :: u ++ r)).
      { destruct c as [[] [] [] [] [] [] [] []]; try reflexivity; congruence. }
      rewrite E2. apply (strto_core (c :: u ++ r)). exists (c :: u). repeat split; assumption.
    + exists false, v. split; [|reflexivity]. unfold strto. rewrite <- app_assoc. rewrite (skip_app w (("+"%char :: u) ++ r) W eq_refl). cbn [app]. apply strto_core. exists u. repeat split; assumption.
    + exists true, v. split; [|reflexivity]. unfold strto. rewrite <- app_assoc. rewrite (skip_app w (("-"%char :: u) ++ r) W eq_refl). cbn [app]. apply strto_core. exists u. repeat split; assumption.
Qed.
Lemma stoi_iff w n : std_stoi w = Some n <-> starts_with_integer w n /\ - 2 ^ 31 <= n < 2 ^ 31.
Proof.
  unfold std_stoi, std_stol, starts_with_integer. fold chars. destruct (strto (chars w)) as [[[neg v] r]|] eqn:E.
  - fold (signed neg v). assert (U : forall a b m, chars w = a ++ b -> integer a m -> (forall c t d, b = c :: t -> ~ digit c d) -> m = signed neg v).
    { intros a b m Ea I S. destruct (proj2 (strto_prefix (chars w) m b)) as (ng & vv & H & ->); [exists a; repeat split; assumption|]. rewrite E in H. injection H as -> -> ->. reflexivity. }
    assert (X : exists a, chars w = a ++ r /\ integer a (signed neg v) /\ stops r) by (apply strto_prefix; exists neg, v; split; [exact E|reflexivity]).
    destruct ((signed neg v <? long_min) || (long_max <? signed neg v)) eqn:L1.
    + split; [discriminate|]. intros ((a & b & Ea & I & S) & B). apply (U _ _ _ Ea I) in S. subst n. apply orb_true_iff in L1. unfold long_min, long_max in L1. rewrite !Z.ltb_lt in L1.
      change (2 ^ 63) with 9223372036854775808 in L1. change (2 ^ 31) with 2147483648 in B. lia.
    + destruct ((signed neg v <? - 2 ^ 31) || (int_max <? signed neg v)) eqn:L2.
      * split; [discriminate|]. intros ((a & b & Ea & I & S) & B). apply (U _ _ _ Ea I) in S. subst n. apply orb_true_iff in L2. unfold int_max in L2. rewrite !Z.ltb_lt in L2. change (2 ^ 31) with 2147483648 in *. lia.
      * apply orb_false_iff in L2. unfold int_max in L2. rewrite !Z.ltb_ge in L2. split.
        { intro H. injection H as <-. destruct X as (a & Ea & I & S). split; [exists a, r; repeat split; assumption|]. change (2 ^ 31) with 2147483648 in *. lia. }
        intros ((a & b & Ea & I & S) & B). apply (U _ _ _ Ea I) in S. subst n. reflexivity.
  - split; [discriminate|]. intros ((a & b & Ea & I & S) & _). destruct (proj2 (strto_prefix (chars w) n b)) as (ng & vv & H & _); [exists a; repeat split; assumption|]. congruence.
Qed.
Lemma rate_iff x n : parse_rw_rate x = Some n <-> attr_opt x "rw_rate" is_rate 0 n.
Proof.
  unfold parse_rw_rate. apply (attr_opt_iff x "rw_rate" (fun w => v <- std_stoi w ;; if v <? 0 then None else Some v)). intros w u. rewrite bind_some. unfold is_rate. split.
  - intros (v & H & B). destruct (v <? 0) eqn:L; [discriminate|]. injection B as <-. apply Z.ltb_ge in L. apply stoi_iff in H. split; [tauto|]. change (2 ^ 31) with 2147483648 in *. lia.
  - intros (H & B). exists u. split; [apply stoi_iff; split; [exact H|change (2 ^ 31) with 2147483648 in *; lia]|]. destruct (u <? 0) eqn:L; [apply Z.ltb_lt in L; lia|reflexivity].
Qed.
Lemma is_async_iff x b : parse_is_async x = Some b <-> attr_opt x "is_async" is_bool false b.
Proof. apply (attr_opt_iff x "is_async" pbool). intros. apply pbool_iff. Qed.
Lemma priority_iff x n : parse_priority x = Some n <-> attr_opt x "thread_priority" is_positive 50 n.
Proof. apply (attr_opt_iff x "thread_priority" positive). intros. apply positive_iff. Qed.
Lemma size_iff x n : parse_size x = Some n <-> attr_opt x "size" is_positive 1 n.
Proof. apply (attr_opt_iff x "size" positive). intros. apply positive_iff. Qed.
Lemma data_type_iff x v : parse_data_type x = v <-> attr_opt x "data_type" eq "double" v.
Proof.
  rewrite <- (attr_opt_iff x "data_type" Some eq) by (intros; split; congruence). unfold parse_data_type. destruct (attr x "data_type"); split; congruence.
Qed.
Lemma param_iff p kv : parse_param p = Some kv <-> attr_says p "name" (fst kv) /\ text_says p (snd kv).
Proof.
  unfold parse_param. rewrite bind_some, strip_get_text. destruct kv as [k v]. cbn. rewrite <- get_attr_some, <- get_text_iff. split.
  - intros (a & -> & H). injection H as -> ->. split; reflexivity.
  - intros [A B]. exists k. rewrite B. split; [exact A|reflexivity].
Qed.
Lemma params_iff ps m : parse_params ps = Some m <-> params_say ps m.
Proof. unfold parse_params, params_say. eapply iff_trans; [apply mapM_some|]. apply F2_iff. intros. apply param_iff. Qed.
Lemma limits_iff x b : parse_limits x = Some b <-> limits_say x b.
Proof.
  unfold parse_limits, limits_say. destruct (kids "limits" x) as [|l r]; split.
  - intro H. injection H as <-. left. split; reflexivity.
  - intros [[_ ->]|(l & r & v & E & _)]; [reflexivity|discriminate].
  - intro H. apply bind_some in H. destruct H as (v & A & B). right. exists l, r, v. apply get_attr_some in A. apply pbool_iff in B. repeat split; assumption.
  - intros [[E _]|(l' & r' & v & E & A & B)]; [discriminate|]. injection E as <- <-. apply bind_some. exists v. apply get_attr_some in A. apply pbool_iff in B. split; assumption.
Qed.
Lemma find_rev_split (k : string) (m : params) :
  match find (fun kv => String.eqb (fst kv) k) (rev m) with
  | Some kv => fst kv = k /\ exists m1 m2, m = m1 ++ kv :: m2 /\ ~ In k (map fst m2)
  | None => ~ In k (map fst m) end.
Proof.
  induction m as [|[k' v'] m IH] using rev_ind; [cbn; tauto|]. rewrite rev_app_distr. cbn. destruct (String.eqb_spec k' k) as [->|N].
  - split; [reflexivity|]. exists m, []. split; [reflexivity|cbn; tauto].
  - destruct (find _ (rev m)) as [kv|].
    + destruct IH as (E & m1 & m2 & -> & H). split; [exact E|]. exists m1, (m2 ++ [(k', v')]). split; [rewrite <- app_assoc; reflexivity|].
      rewrite map_app, in_app_iff. cbn. intros [I|[I|[]]]; [exact (H I)|congruence].
    + rewrite map_app, in_app_iff. cbn. intros [I|[I|[]]]; [exact (IH I)|congruence].
Qed.
Lemma value_iff m k v : look_or "" k m = v <-> param_value m k v.
Proof.
  unfold look_or, look, param_value. pose proof (find_rev_split k m) as F. destruct (find _ (rev m)) as [[k' v']|]; cbn in *.
  - destruct F as (-> & m1 & m2 & E & N). split.
    + intros <-. right. exists m1, m2. split; assumption.
    + intros [[_ H]|(m1' & m2' & E' & N')].
      * exfalso. apply H. rewrite E, map_app, in_app_iff. right. left. reflexivity.
      * revert m1' m1 E' E. clear -N N'. intros m1' m1 -> E. revert m1 E. induction m1' as [|[a b] m1' IH]; intros [|[c d] m1] E; cbn in *.
        { injection E as -> _. reflexivity. }
        { injection E as <- _ E. exfalso. apply N'. rewrite E, map_app, in_app_iff. right. left. reflexivity. }
        { injection E as -> _ E. exfalso. apply N. rewrite <- E, map_app, in_app_iff. right. left. reflexivity. }
        { injection E as _ _ E. apply (IH m1 E). }
  - split; [intros <-; left; split; [reflexivity|exact F]|]. intros [[-> _]|(m1 & m2 & E & _)]; [reflexivity|]. exfalso. apply F. rewrite E, map_app, in_app_iff. right. left. reflexivity.
Qed.
Lemma itf_iff x i : parse_itf x = Some i <-> itf_says x i.
Proof.
  unfold parse_itf. rewrite bind_some. split.
  - intros (n & N & H). apply bind_some in H. destruct H as (ps & P & H). apply bind_some in H. destruct H as (l & L & H). apply bind_some in H. destruct H as (sz & S & H). injection H as <-.
    constructor; cbn; try (apply value_iff; reflexivity); [apply get_attr_some|apply params_iff|apply limits_iff|apply data_type_iff|apply size_iff]; try assumption; reflexivity.
  - intros [N P M1 M2 M3 L D S]. exists (ii_name i). split; [apply get_attr_some; exact N|]. apply params_iff in P. rewrite P. cbn. apply limits_iff in L. rewrite L. cbn. apply size_iff in S. rewrite S. cbn.
    apply value_iff in M1, M2, M3. apply data_type_iff in D. rewrite M1, M2, M3, D. destruct i; reflexivity.
Qed.
Lemma switched_iff b i j : j = with_limits i b <-> switched b i j.
Proof.
  unfold switched. split.
  - intros ->. cbn. do 7 (split; [reflexivity|]). apply andb_true_iff.
  - intros (A & B & C & D & E & F & G & H). destruct j; cbn in *. subst. unfold with_limits. f_equal. destruct ii_limits, (ii_limits i), b; cbn; try reflexivity; try (destruct H as [H _]; specialize (H eq_refl); destruct H; discriminate); destruct H as [_ H]; specialize (H (conj eq_refl eq_refl)); discriminate.
Qed.
Lemma F2_map {A B C} (P : A -> B -> Prop) (f : B -> C) l : forall m, (exists k, Forall2 P l k /\ map f k = m) <-> Forall2 (fun x z => exists y, P x y /\ z = f y) l m.
Proof.
  induction l as [|x l IH]; intro m; split.
  - intros (k & H & <-). inversion H. constructor.
  - intro H. inversion H. exists []. split; [constructor|reflexivity].
  - intros (k & H & <-). inversion H as [|? y ? k' Py Pk]; subst. constructor; [exists y; split; [exact Py|reflexivity]|]. apply IH. exists k'. split; [exact Pk|reflexivity].
  - intro H. inversion H as [|? z ? m' (y & Py & ->) Pm]; subst. apply IH in Pm. destruct Pm as (k & Pk & <-). exists (y :: k). split; [constructor; assumption|reflexivity].
Qed.
Lemma itfs_iff l m b : (exists cs, mapM parse_itf l = Some cs /\ map (fun i => with_limits i b) cs = m) <-> Forall2 (fun y j => exists i, itf_says y i /\ switched b i j) l m.
Proof.
  transitivity (exists k, Forall2 (fun x y => parse_itf x = Some y) l k /\ map (fun i => with_limits i b) k = m).
  - split; intros (k & A & B); exists k; (split; [apply mapM_some; exact A|exact B]).
  - rewrite F2_map. apply F2_iff. intros x y. split; intros (i & A & B); exists i; (split; [apply itf_iff; exact A|apply switched_iff; exact B]).
Qed.
Lemma mimic_iff x m : parse_mimic x = Some m <-> (tag x = "joint" /\ mimic_attr x m) \/ (tag x <> "joint" /\ m = NotSet).
Proof.
  unfold parse_mimic. destruct (String.eqb_spec (tag x) "joint") as [E|N].
  - unfold mimic_attr. rewrite <- (attr_opt_iff x "mimic" (fun s => match pbool s with Some true => Some MTrue | Some false => Some MFalse | None => None end)).
    + unfold get_attr. destruct (attr x "mimic"); (split; [left; split; assumption|intros [[_ H]|[H _]]; [exact H|contradiction]]).
    + intros w u. rewrite <- !pbool_iff. destruct (pbool w) as [[]|]; split; try discriminate; intro H.
      * injection H as <-. left. split; reflexivity.
      * destruct H as [[_ ->]|[H _]]; [reflexivity|discriminate].
      * injection H as <-. right. split; reflexivity.
      * destruct H as [[H _]|[_ ->]]; [discriminate|reflexivity].
      * destruct H as [[H _]|[H _]]; discriminate.
  - split; [intro H; injection H as <-; right; split; [exact N|reflexivity]|]. intros [[H _]|[_ ->]]; [contradiction|reflexivity].
Qed.
Lemma component_iff x c : parse_component x = Some c <-> comp_says x c.
Proof.
  unfold parse_component. split.
  - intro H. repeat (apply bind_some in H; destruct H as (? & ? & H)). injection H as <-.
    constructor; cbn; try reflexivity; [apply get_attr_some|apply mimic_iff|apply limits_iff|apply itfs_iff|apply itfs_iff|apply params_iff]; try assumption; eexists; split; try reflexivity; assumption.
  - intros [T N M L C S P]. apply get_attr_some in N. apply mimic_iff in M. apply limits_iff in L. apply itfs_iff in C, S. apply params_iff in P. destruct C as (cs & C & C'), S as (ss & S & S').
    rewrite N. cbn. rewrite M. cbn. rewrite L. cbn. rewrite C. cbn. rewrite S. cbn. rewrite P. cbn. rewrite C', S', <- T. destruct c; reflexivity.
Qed.
Lemma complex_iff x c : parse_complex x = Some c <-> gpio_says x c.
Proof.
  assert (I : forall l m, mapM parse_itf l = Some m <-> Forall2 itf_says l m) by (intros; rewrite mapM_some; apply F2_iff; intros; apply itf_iff).
  unfold parse_complex. split.
  - intro H. repeat (apply bind_some in H; destruct H as (? & ? & H)). injection H as <-.
    constructor; cbn; try reflexivity; [apply get_attr_some|apply I|apply I|apply params_iff]; assumption.
  - intros [T N M L C S P]. apply get_attr_some in N. apply I in C, S. apply params_iff in P.
    rewrite N. cbn. rewrite C. cbn. rewrite S. cbn. rewrite P. cbn. rewrite <- T. destruct c; cbn in *; subst; reflexivity.
Qed.
Lemma first_text_iff x t v : (match kids t x with [] => None | p :: _ => Some (get_text p) end) = Some v <-> first_text x t v.
Proof.
  unfold first_text. destruct (kids t x) as [|p r]; split.
  - discriminate.
  - intros (p & r & E & _). discriminate.
  - intro H. injection H as H. exists p, r. split; [reflexivity|apply get_text_iff; exact H].
  - intros (p' & r' & E & T). injection E as <- <-. apply get_text_iff in T. rewrite T. reflexivity.
Qed.
