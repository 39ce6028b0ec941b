(** XmlProofs3.v *)
From Coq Require Import List Bool String Ascii ZArith SpecFloat Lia.
From Verif Require Import Base LexModel LexSpec LexProofs ArrayModel ArraySpec ArrayProofs LimitsModel ParserModel XmlTypes XmlModel XmlSpec XmlProofs XmlProofs2.
Import ListNotations.
Open Scope string_scope.
Open Scope Z_scope.
Open Scope list_scope.

Section P.
Variable stod : string -> option F.
Variable to_int : F -> Z.

Lemma param_or_iff x t d v : param_or stod (children x) t d = v <-> number_or stod x t d v.
Proof.
  unfold number_or, kids. generalize (children x) as l. intro l.
  assert (K : param_or stod l t d = param_or stod (filter (fun y => String.eqb (tag y) t) l) t d).
  { induction l as [|y l IH]; [reflexivity|]. cbn. destruct (String.eqb (tag y) t) eqn:E; [|exact IH]. cbn. rewrite E. destruct (XmlTypes.text y); [reflexivity|exact IH]. }
  rewrite K. clear K. assert (A : forall y, In y (filter (fun y => String.eqb (tag y) t) l) -> String.eqb (tag y) t = true) by (intros y H; apply filter_In in H; tauto).
  revert A. generalize (filter (fun y => String.eqb (tag y) t) l) as k. clear l. induction k as [|y k IH]; intro A.
  - cbn. split; [intros <-; left; split; [intros ? []|reflexivity]|]. intros [[_ ->]|(l1 & p & l2 & s & w & E & _)]; [reflexivity|destruct l1; discriminate].
  - cbn [param_or]. rewrite (A y (or_introl eq_refl)). destruct (XmlTypes.text y) as [s|] eqn:T.
    + split.
      * intros H. right. exists [], y, k, s, (strip s). split; [reflexivity|]. split; [intros ? []|]. split; [exact T|]. split; [apply strip_means|]. destruct (stod (strip s)); [left; congruence|right; split; congruence].
      * intros [[N _]|(l1 & p & l2 & s' & w & E & N & T' & M & S)].
        { rewrite (N y (or_introl eq_refl)) in T. discriminate. }
        destruct l1 as [|z l1]; cbn in E.
        { injection E as <- <-. rewrite T in T'. injection T' as <-. apply strip_iff in M. rewrite M. destruct S as [S|[S ->]]; rewrite S; reflexivity. }
        { injection E as <- ->. rewrite (N y (or_introl eq_refl)) in T. discriminate. }
    + rewrite IH by (intros z Z; apply A; right; exact Z). split.
      * intros [[N ->]|(l1 & p & l2 & s & w & -> & N & T' & M & S)].
        { left. split; [|reflexivity]. intros z [<-|Z]; [exact T|apply N; exact Z]. }
        right. exists (y :: l1), p, l2, s, w. split; [reflexivity|]. split; [intros z [<-|Z]; [exact T|apply N; exact Z]|]. split; [exact T'|]. split; [exact M|exact S].
      * intros [[N ->]|(l1 & p & l2 & s & w & E & N & T' & M & S)].
        { left. split; [|reflexivity]. intros z Z. apply N. right. exact Z. }
        destruct l1 as [|z l1]; cbn in E; injection E as <- ->; [congruence|]. right. exists l1, p, l2, s, w. split; [reflexivity|]. split; [intros z Z; apply N; right; exact Z|]. split; [exact T'|]. split; [exact M|exact S].
Qed.
Lemma tj_iff x j : parse_tj stod x = Some j <-> part_says stod x j /\ tj_states j = [] /\ tj_cmds j = [].
Proof.
  unfold parse_tj, part_says. rewrite <- !get_attr_some. rewrite <- (attr_opt_iff x "read_only" pbool) by (intros; apply pbool_iff). rewrite <- !param_or_iff. fold one zero. split.
  - intro H. apply bind_some in H. destruct H as (n & N & H). apply bind_some in H. destruct H as (r & R & H). apply bind_some in H. destruct H as (ro & RO & H). injection H as <-. repeat split; assumption.
  - intros ((N & R & RO & D & O) & S & C). rewrite N. cbn [bind]. rewrite R. cbn [bind]. rewrite RO. cbn [bind]. rewrite D, O. destruct j; cbn in *. subst. reflexivity.
Qed.
Lemma find_split {A} (f : A -> bool) l a : find f l = Some a <-> exists l1 l2, l = l1 ++ a :: l2 /\ f a = true /\ forall d, In d l1 -> f d = false.
Proof.
  induction l as [|x l IH]; cbn.
  - split; [discriminate|]. intros (l1 & l2 & E & _). destruct l1; discriminate.
  - destruct (f x) eqn:Fx; split.
    + intro H. injection H as <-. exists [], l. repeat split; [exact Fx|intros ? []].
    + intros (l1 & l2 & E & Fa & N). destruct l1 as [|y l1]; cbn in E; injection E as -> _; [reflexivity|]. rewrite (N y (or_introl eq_refl)) in Fx. discriminate.
    + intro H. apply IH in H. destruct H as (l1 & l2 & -> & Fa & N). exists (x :: l1), l2. repeat split; [exact Fa|]. intros d [<-|D]; [exact Fx|apply N; exact D].
    + intros (l1 & l2 & E & Fa & N). destruct l1 as [|y l1]; cbn in E; injection E as -> ->; [congruence|]. apply IH. exists l1, l2. repeat split; [exact Fa|]. intros d D. apply N. right. exact D.
Qed.
Lemma fill_joint_iff joints j0 j : tj_states j0 = [] -> tj_cmds j0 = [] ->
  fill_joint joints j0 = Some j <-> filled joints j /\ tj_name j = tj_name j0 /\ tj_role j = tj_role j0 /\ tj_red j = tj_red j0 /\ tj_off j = tj_off j0 /\ tj_ro j = tj_ro j0.
Proof.
  intros S0 C0. unfold fill_joint, filled. split.
  - destruct (find _ joints) as [c|] eqn:E; [|discriminate]. intro H. injection H as <-. cbn. rewrite S0, C0. apply find_split in E. destruct E as (l1 & l2 & -> & Fc & N). apply String.eqb_eq in Fc.
    split; [|repeat split]. exists l1, c, l2. split; [reflexivity|]. split; [congruence|]. split; [|split; reflexivity]. intros d D X. specialize (N d D). apply String.eqb_neq in N. congruence.
  - intros ((l1 & c & l2 & -> & Nc & N & S & C) & A1 & A2 & A3 & A4 & A5).
    assert (E : find (fun c => String.eqb (tj_name j0) (ci_name c)) (l1 ++ c :: l2) = Some c).
    { apply find_split. exists l1, l2. split; [reflexivity|]. split; [apply String.eqb_eq; congruence|]. intros d D. apply String.eqb_neq. specialize (N d D). congruence. }
    rewrite E, S0, C0. destruct j; cbn in *. subst. rewrite <- A1. reflexivity.
Qed.
Lemma F2_comp {A B C} (P : A -> B -> Prop) (Q : B -> C -> Prop) l : forall m, (exists k, Forall2 P l k /\ Forall2 Q k m) <-> Forall2 (fun x z => exists y, P x y /\ Q y z) l m.
Proof.
  induction l as [|x l IH]; intro m; split.
  - intros (k & H & H'). inversion H; subst. inversion H'. constructor.
  - intro H. inversion H. exists []. split; constructor.
  - intros (k & H & H'). inversion H as [|? y ? k' Py Pk]; subst. inversion H' as [|? z ? m' Qz Qm]; subst. constructor; [exists y; split; assumption|]. apply IH. exists k'. split; assumption.
  - intro H. inversion H as [|? z ? m' (y & Py & Qz) Pm]; subst. apply IH in Pm. destruct Pm as (k & Pk & Qk). exists (y :: k). split; constructor; assumption.
Qed.
Lemma joint_iff joints y j : (exists j0, parse_tj stod y = Some j0 /\ fill_joint joints j0 = Some j) <-> part_says stod y j /\ filled joints j.
Proof.
  split.
  - intros (j0 & P & Fl). apply tj_iff in P. destruct P as (P & S & C). apply (fill_joint_iff _ _ _ S C) in Fl. destruct Fl as (Fd & A1 & A2 & A3 & A4 & A5). split; [|exact Fd].
    unfold part_says in *. rewrite A1, A2, A3, A4, A5. exact P.
  - intros (P & Fd). set (j0 := {| tj_name := tj_name j; tj_states := []; tj_cmds := []; tj_role := tj_role j; tj_red := tj_red j; tj_off := tj_off j; tj_ro := tj_ro j |}). exists j0. split.
    + apply tj_iff. split; [exact P|]. split; reflexivity.
    + apply fill_joint_iff; try reflexivity. split; [exact Fd|]. repeat split.
Qed.
Lemma trans_iff type joints x t : (exists t0, parse_trans stod x = Some t0 /\ fill_trans type joints t0 = Some t) <-> trans_says stod type joints x t.
Proof.
  assert (J : forall l js, (exists js0, mapM (parse_tj stod) l = Some js0 /\ mapM (fill_joint joints) js0 = Some js) <-> Forall2 (fun y j => part_says stod y j /\ filled joints j) l js).
  { intros l js. transitivity (Forall2 (fun x z => exists y, parse_tj stod x = Some y /\ fill_joint joints y = Some z) l js).
    - rewrite <- F2_comp. split; intros (k & A & B); exists k; (split; apply mapM_some; assumption).
    - apply F2_iff. intros. apply joint_iff. }
  assert (Ac : forall l acts, mapM (parse_tj stod) l = Some acts <-> Forall2 (fun y a => part_says stod y a /\ tj_states a = [] /\ tj_cmds a = []) l acts).
  { intros. rewrite mapM_some. apply F2_iff. intros. apply tj_iff. }
  split.
  - intros (t0 & P & Fl). unfold parse_trans in P. apply bind_some in P. destruct P as (n & N & P). apply bind_some in P. destruct P as (ty & Ty & P). apply bind_some in P. destruct P as (js0 & Js & P).
    apply bind_some in P. destruct P as (a0 & A0 & P). apply bind_some in P. destruct P as (ps & Ps & P). injection P as <-. unfold fill_trans in Fl. cbn [tr_joints tr_acts tr_name tr_type tr_params] in Fl.
    apply bind_some in Fl. destruct Fl as (js & Fj & Fl). apply bind_some in Fl. destruct Fl as (acts & Fa & Fl). injection Fl as <-. constructor; cbn [tr_joints tr_acts tr_name tr_type tr_params].
    + apply get_attr_some. exact N.
    + apply first_text_iff. exact Ty.
    + apply J. exists js0. split; assumption.
    + apply Ac in A0. unfold actuators_say. destruct (String.eqb_spec type "actuator") as [E|NE].
      * right. split; [exact E|]. destruct js as [|j [|? ?]]; try discriminate. injection Fa as <-. eexists j, _, a0. split; [reflexivity|]. split; [reflexivity|]. split; [exact A0|]. repeat split.
      * left. injection Fa as <-. split; assumption.
    + apply params_iff. exact Ps.
  - intros [N Ty Js A Ps]. apply get_attr_some in N. apply first_text_iff in Ty. apply J in Js. destruct Js as (js0 & Js & Fj). apply params_iff in Ps.
    assert (X : exists a0, mapM (parse_tj stod) (kids "actuator" x) = Some a0 /\
      (if String.eqb type "actuator" then match tr_joints t with
             | [j] => Some (a0 ++ [{| tj_name := "actuator1"; tj_states := tj_states j; tj_cmds := tj_cmds j; tj_role := "actuator1"; tj_red := one; tj_off := zero; tj_ro := false |}])
             | _ => None end else Some a0) = Some (tr_acts t)).
    { destruct A as [[NE A]|(E & j & a & ds & Ej & Ea & D & Df)].
      - exists (tr_acts t). split; [apply Ac; exact A|]. apply String.eqb_neq in NE. rewrite NE. reflexivity.
      - exists ds. split; [apply Ac; exact D|]. apply String.eqb_eq in E. rewrite E, Ej, Ea. do 2 f_equal. destruct Df as (D1 & D2 & D3 & D4 & D5 & D6 & D7). destruct a; cbn in *. subst. reflexivity. }
    destruct X as (a0 & A0 & A1).
    exists {| tr_name := tr_name t; tr_type := tr_type t; tr_joints := js0; tr_acts := a0; tr_params := tr_params t |}. split.
    + unfold parse_trans. rewrite N. cbn [bind]. rewrite Ty. cbn [bind]. rewrite Js. cbn [bind]. rewrite A0. cbn [bind]. rewrite Ps. reflexivity.
    + unfold fill_trans. cbn [tr_joints tr_acts tr_name tr_type tr_params]. rewrite Fj. cbn [bind]. rewrite A1. cbn [bind]. destruct t; reflexivity.
Qed.

(** latest *)
Definition pick {T} (d : T) (o : option T) : T := match o with Some w => w | None => d end.
Lemma latest_nil {T} (P : xml -> option T -> Prop) d v : latest P d [] v <-> v = d.
Proof. unfold latest. split; [intros [_ [[E _]|(l1 & x & l2 & E & _)]]; [exact E|destruct l1; discriminate]|]. intros ->. split; [constructor|left; split; [reflexivity|constructor]]. Qed.
Lemma latest_cons {T} (P : xml -> option T -> Prop) d x l v : latest P d (x :: l) v <-> exists o, P x o /\ latest P (pick d o) l v.
Proof.
  unfold latest. split.
  - intros [V H]. inversion V as [|? ? (o & Po) V']; subst. destruct H as [[-> N]|(l1 & y & l2 & E & Py & N)].
    + inversion N; subst. exists None. split; [assumption|]. split; [exact V'|]. left. split; [reflexivity|assumption].
    + destruct l1 as [|z l1]; cbn in E; injection E as <- ->.
      * exists (Some v). split; [exact Py|]. split; [exact V'|]. left. split; [reflexivity|exact N].
      * exists o. split; [exact Po|]. split; [exact V'|]. right. exists l1, y, l2. repeat split; assumption.
  - intros (o & Po & V & H). split; [constructor; [exists o; exact Po|exact V]|]. destruct H as [[-> N]|(l1 & y & l2 & -> & Py & N)].
    + destruct o as [w|]; cbn; [right; exists [], x, l; repeat split; assumption|left; split; [reflexivity|constructor; assumption]].
    + right. exists (x :: l1), y, l2. repeat split; assumption.
Qed.
Lemma latest_step {T} (P : xml -> option T -> Prop) (g : T -> xml -> option T) : (forall d x v, g d x = Some v <-> exists o, P x o /\ v = pick d o) ->
  forall d x l v, latest P d (x :: l) v <-> exists d', g d x = Some d' /\ latest P d' l v.
Proof.
  intros G d x l v. rewrite latest_cons. split.
  - intros (o & Po & L). exists (pick d o). split; [apply G; exists o; split; [exact Po|reflexivity]|exact L].
  - intros (d' & E & L). apply G in E. destruct E as (o & Po & ->). exists o. split; assumption.
Qed.
Definition grows {T} (P : xml -> T -> Prop) (l : list xml) (a b : list T) : Prop := exists js, b = a ++ js /\ Forall2 P l js.
Lemma grows_nil {T} (P : xml -> T -> Prop) a b : grows P [] a b <-> b = a.
Proof. unfold grows. split; [intros (js & -> & H); inversion H; apply app_nil_r|]. intros ->. exists []. split; [rewrite app_nil_r; reflexivity|constructor]. Qed.
Lemma grows_cons {T} (P : xml -> T -> Prop) x l a b : grows P (x :: l) a b <-> exists y, P x y /\ grows P l (a ++ [y]) b.
Proof.
  unfold grows. split.
  - intros (js & -> & H). inversion H as [|? y ? k Py Pk]; subst. exists y. split; [exact Py|]. exists k. split; [rewrite <- app_assoc; reflexivity|exact Pk].
  - intros (y & Py & k & -> & Pk). exists (y :: k). split; [rewrite <- app_assoc; reflexivity|constructor; assumption].
Qed.

(** the steps of <hardware> and <properties> *)
Definition plugin_g (d : string) (x : xml) : option string := match kids "plugin" x with [] => None | p :: _ => Some (get_text p) end.
Definition group_g (d : string) (x : xml) : option string := Some (match kids "group" x with [] => d | g :: _ => get_text g end).
Definition params_g (d : params) (x : xml) : option params := match kids "param" x with [] => Some d | l => parse_params l end.
Lemma plugin_g_iff d x v : plugin_g d x = Some v <-> exists o, plugin_of x o /\ v = pick d o.
Proof.
  unfold plugin_g, plugin_of. rewrite first_text_iff. split; [intro H; exists (Some v); split; [exists v; split; [reflexivity|exact H]|reflexivity]|]. intros (o & (w & -> & H) & ->). exact H.
Qed.
Lemma group_g_iff d x v : group_g d x = Some v <-> exists o, group_of x o /\ v = pick d o.
Proof.
  unfold group_g, group_of. destruct (kids "group" x) as [|g r] eqn:K.
  - split; [intro H; injection H as <-; exists None; split; [left; split; reflexivity|reflexivity]|].
    intros (o & [[_ ->]|(w & _ & (p & r & E & _))] & ->); [reflexivity|congruence].
  - pose proof (first_text_iff x "group") as FT. rewrite K in FT. rewrite FT. split; [intro H; exists (Some v); split; [right; exists v; split; [reflexivity|exact H]|reflexivity]|].
    intros (o & [[E _]|(w & -> & H)] & ->); [discriminate|exact H].
Qed.
Lemma params_g_iff d x v : params_g d x = Some v <-> exists o, params_of x o /\ v = pick d o.
Proof.
  unfold params_g, params_of. destruct (kids "param" x) as [|p r].
  - split; [intro H; injection H as <-; exists None; split; [left; split; reflexivity|reflexivity]|]. intros (o & [[_ ->]|[N _]] & ->); [reflexivity|congruence].
  - rewrite params_iff. split; [intro H; exists (Some v); split; [right; split; [discriminate|exists v; split; [reflexivity|exact H]]|reflexivity]|].
    intros (o & [[E _]|[_ (m & -> & H)]] & ->); [discriminate|exact H].
Qed.
Definition async_g {T} (k : string) (f : string -> option T) (d : T) (x : xml) : option T :=
  match kids "async" x with [] => Some d | a :: _ => match get_attr a k with None => Some d | Some s => f s end end.
Lemma async_g_iff {T} k (f : string -> option T) (P : string -> T -> Prop) : (forall w u, f w = Some u <-> P w u) ->
  forall d x v, async_g k f d x = Some v <-> exists o, async_of k P x o /\ v = pick d o.
Proof.
  intros Fp d x v. unfold async_g, async_of. destruct (kids "async" x) as [|a r].
  - split; [intro H; injection H as <-; exists None; split; [left; split; reflexivity|reflexivity]|]. intros (o & [[_ ->]|(a & r & E & _)] & ->); [reflexivity|discriminate].
  - destruct (get_attr a k) as [s|] eqn:G.
    + split.
      * intro H. exists (Some v). split; [|reflexivity]. right. exists a, r. split; [reflexivity|]. right. exists s, v. split; [apply get_attr_some; exact G|]. split; [apply Fp; exact H|reflexivity].
      * intros (o & [[E _]|(a' & r' & E & H)] & ->); [discriminate|]. injection E as <- <-. destruct H as [[N _]|(w & u & A & Pw & ->)]; [apply get_attr_none in N; congruence|].
        apply get_attr_some in A. rewrite G in A. injection A as ->. apply Fp. exact Pw.
    + split.
      * intro H. injection H as <-. exists None. split; [|reflexivity]. right. exists a, r. split; [reflexivity|]. left. split; [apply get_attr_none; exact G|reflexivity].
      * intros (o & [[E _]|(a' & r' & E & H)] & ->); [discriminate|]. injection E as <- <-. destruct H as [[N ->]|(w & u & A & Pw & ->)]; [reflexivity|]. apply get_attr_some in A. congruence.
Qed.
Lemma int_array_iff w l : int_array stod to_int w = Some l <-> is_int_array stod to_int w l.
Proof.
  unfold int_array, is_int_array. fold chars.
  assert (E : forall m, parse_number_array (fun t => match stod (string_of_list_ascii t) with Some v => Some (to_int v) | None => None end) (chars w) = Ok m <->
    exists ts, flat_array ts (chars w) /\ Forall2 (fun t n => exists f, stod (string_of_list_ascii t) = Some f /\ n = to_int f) ts m).
  { intro m. rewrite main_numbers. split; intros (ts & Fl & H); exists ts; (split; [exact Fl|]); revert H; apply F2_iff; intros t n; destruct (stod (string_of_list_ascii t)) as [f|].
    - split; [intros (g & E & ->); injection E as <-; reflexivity|intro H; injection H as <-; exists f; split; reflexivity].
    - split; [intros (g & E & _); discriminate|discriminate].
    - split; [intro H; injection H as <-; exists f; split; reflexivity|intros (g & E & ->); injection E as <-; reflexivity].
    - split; [discriminate|intros (g & E & _); discriminate]. }
  destruct (parse_number_array _ (chars w)) as [m| |] eqn:H.
  - split; [intro X; injection X as <-; apply E; reflexivity|]. intro X. apply E in X. injection X as ->. reflexivity.
  - split; [discriminate|]. intro X. apply E in X. discriminate.
  - split; [discriminate|]. intro X. apply E in X. discriminate.
Qed.
Lemma tolower_iff c d : tolower c = d <-> (capital_letter c /\ nat_of_ascii d = (nat_of_ascii c + 32)%nat) \/ (~ capital_letter c /\ d = c).
Proof.
  assert (A : forall c, (In c (chars "ABCDEFGHIJKLMNOPQRSTUVWXYZ") /\ nat_of_ascii (tolower c) = (nat_of_ascii c + 32)%nat) \/ (~ In c (chars "ABCDEFGHIJKLMNOPQRSTUVWXYZ") /\ tolower c = c)).
  { clear. intro c. destruct (in_dec ascii_dec c (chars "ABCDEFGHIJKLMNOPQRSTUVWXYZ")) as [I|N].
    - left. split; [exact I|]. unfold chars in I. cbn in I. repeat (destruct I as [<-|I]; [reflexivity|]). destruct I.
    - right. split; [exact N|]. destruct c as [[] [] [] [] [] [] [] []]; try reflexivity; exfalso; apply N; unfold chars; cbn; tauto. }
  assert (Inj : forall a b : ascii, nat_of_ascii a = nat_of_ascii b -> a = b).
  { intros a b E. rewrite <- (ascii_nat_embedding a), <- (ascii_nat_embedding b), E. reflexivity. }
  unfold capital_letter. split.
  - intros <-. apply A.
  - intros [[I E]|[N ->]]; destruct (A c) as [[I' E']|[N' E']]; try contradiction; [|exact E']. apply Inj. congruence.
Qed.
Lemma lower_iff w v : lower w = v <-> in_lower_case w v.
Proof.
  unfold in_lower_case. assert (E : forall l m, to_lower_case l = m <-> Forall2 (fun c d => (capital_letter c /\ nat_of_ascii d = (nat_of_ascii c + 32)%nat) \/ (~ capital_letter c /\ d = c)) l m).
  { induction l as [|c l IH]; intro m; cbn; split.
    - intros <-. constructor.
    - intro H. inversion H. reflexivity.
    - intros <-. constructor; [apply tolower_iff; reflexivity|apply IH; reflexivity].
    - intro H. inversion H as [|? d ? m' D M]; subst. apply tolower_iff in D. apply IH in M. change (tolower c :: to_lower_case l = d :: m'). congruence. }
  rewrite <- E. unfold lower. fold chars. split.
  - intros <-. rewrite chars_of. reflexivity.
  - intro H. apply chars_inj. rewrite chars_of. exact H.
Qed.
End P.
