(** XmlProofs5.v *)
From Coq Require Import List Bool String Ascii ZArith SpecFloat Lia.
From Verif Require Import Base LexModel LexSpec LexProofs ArrayModel ArraySpec ArrayProofs LimitsModel ParserModel XmlTypes XmlModel XmlSpec XmlProofs XmlProofs2 XmlProofs3 XmlProofs4.
Import ListNotations.
Open Scope string_scope.
Open Scope Z_scope.
Open Scope list_scope.

Section P.
Variable stod : string -> option F.
Variable to_int : F -> Z.

Lemma text_of_iff s t : text_of stod s = t <-> limit_text stod s t.
Proof.
  unfold text_of, limit_text. destruct (String.eqb_spec s "") as [->|N].
  - split; [intros <-; left; split; reflexivity|]. intros [[_ ->]|[N _]]; [reflexivity|congruence].
  - destruct (stod s) as [v|].
    + split; [intros <-; right; split; [exact N|right; exists v; split; reflexivity]|]. intros [[E _]|[_ [[E _]|(w & E & ->)]]]; [contradiction|discriminate|]. injection E as ->. reflexivity.
    + split; [intros <-; right; split; [exact N|left; split; reflexivity]|]. intros [[E _]|[_ [[_ ->]|(w & E & _)]]]; [contradiction|reflexivity|discriminate].
Qed.
Lemma limit_joint_iff c j : limits_joint stod c = j <-> limit_joint stod c j.
Proof.
  unfold limits_joint, limit_joint. split.
  - intros <-. split; [reflexivity|]. cbn [j_cmds]. induction (ci_cmds c) as [|i l IH]; cbn; constructor; [|exact IH]. cbn. repeat split; try reflexivity; apply text_of_iff; reflexivity.
  - intros [E H]. destruct j as [e k]. cbn in *. subst e. f_equal. induction H as [|i kk l k (A & B & C & D) _ IH]; [reflexivity|]. cbn. f_equal; [|exact IH].
    apply text_of_iff in B, C. destruct kk; cbn in *. subst. reflexivity.
Qed.
Lemma joint_index_iff n l : forall k, joint_index n l = Some k <-> first_joint n l k.
Proof.
  induction l as [|c l IH]; intro k; cbn.
  - split; [discriminate|]. intros (c & E & _). destruct k; discriminate.
  - destruct (String.eqb_spec (ci_name c) n) as [E|N]; split.
    + intro H. injection H as <-. exists c. repeat split; [exact E|]. intros; lia.
    + intros (d & Hd & Nd & F). destruct k; [reflexivity|]. exfalso. apply (F 0%nat c); [lia|reflexivity|exact E].
    + destruct (joint_index n l) as [m|]; [|discriminate]. intro H. injection H as <-. destruct (proj1 (IH m) eq_refl) as (d & Hd & Nd & F). exists d. repeat split; try assumption.
      intros [|i] e L He; [injection He as <-; exact N|apply (F i e); [lia|exact He]].
    + intros (d & Hd & Nd & F). destruct k as [|k]; [injection Hd as ->; contradiction|]. rewrite (proj2 (IH k)); [reflexivity|]. exists d. repeat split; try assumption. intros i e L He. apply (F (S i) e); [lia|exact He].
Qed.
Definition add_mimic (ms : list mimic_info) (o : option mimic_info) := ms ++ match o with Some m => [m] | None => [] end.
Lemma check_joint_iff u h i c r r' : check_joint stod u h i c r = Some r' <->
  exists o j, joint_agrees u h i c o /\ aget u (ci_name c) = Some j /\
    r' = {| r_hw := r_hw r; r_mimic := add_mimic (r_mimic r) o; r_limits := aset (r_limits r) (ci_name c) (joint_limits (uj_limits j) (limits_joint stod c));
            r_soft := match soft_limits (uj_limits j) (limits_joint stod c) with Some s => aset (r_soft r) (ci_name c) s | None => r_soft r end |}.
Proof.
  unfold check_joint, joint_agrees. destruct (aget u (ci_name c)) as [j|] eqn:A; [|split; [discriminate|intros (o & j & _ & E & _); discriminate]].
  split.
  - destruct (uj_mimic j) as [[[n mu] off]|] eqn:M.
    + destruct (ci_mimic c) eqn:Cm.
      * destruct (ci_cmds c) eqn:Cc; [|discriminate]. destruct (joint_index n (h_joints h)) as [k|] eqn:K; [|discriminate]. cbn [bind]. destruct (uj_fixed j) eqn:Fx; [discriminate|]. intro H. injection H as <-.
        exists (Some {| m_joint := i; m_mimicked := k; m_mult := mu; m_off := off |}), j. split; [|split; reflexivity]. exists j. split; [reflexivity|]. split; [exact Fx|]. right; right. exists n, {| m_joint := i; m_mimicked := k; m_mult := mu; m_off := off |}.
        repeat split; try assumption; try congruence. apply joint_index_iff. exact K.
      * destruct (ci_cmds c) eqn:Cc; [|discriminate]. destruct (joint_index n (h_joints h)) as [k|] eqn:K; [|discriminate]. cbn [bind]. destruct (uj_fixed j) eqn:Fx; [discriminate|]. intro H. injection H as <-.
        exists (Some {| m_joint := i; m_mimicked := k; m_mult := mu; m_off := off |}), j. split; [|split; reflexivity]. exists j. split; [reflexivity|]. split; [exact Fx|]. right; right. exists n, {| m_joint := i; m_mimicked := k; m_mult := mu; m_off := off |}.
        repeat split; try assumption; try congruence. apply joint_index_iff. exact K.
      * cbn [bind]. destruct (uj_fixed j) eqn:Fx; [discriminate|]. intro H. injection H as <-. exists None, j. unfold add_mimic. rewrite app_nil_r. split; [|split; reflexivity]. exists j. split; [reflexivity|]. split; [exact Fx|]. right; left. repeat split. congruence.
    + assert (C : ci_mimic c <> MTrue /\ (if uj_fixed j then None else Some {| r_hw := r_hw r; r_mimic := r_mimic r; r_limits := aset (r_limits r) (ci_name c) (joint_limits (uj_limits j) (limits_joint stod c));
            r_soft := match soft_limits (uj_limits j) (limits_joint stod c) with Some s => aset (r_soft r) (ci_name c) s | None => r_soft r end |}) = Some r' -> exists o j0, (exists j1, Some j = Some j1 /\ uj_fixed j1 = false /\
    ((uj_mimic j1 = None /\ ci_mimic c <> MTrue /\ o = None) \/ (uj_mimic j1 <> None /\ ci_mimic c = MFalse /\ o = None) \/
     exists n m, uj_mimic j1 = Some (n, m_mult m, m_off m) /\ ci_mimic c <> MFalse /\ ci_cmds c = [] /\ o = Some m /\ m_joint m = i /\ first_joint n (h_joints h) (m_mimicked m))) /\ Some j = Some j0 /\
    r' = {| r_hw := r_hw r; r_mimic := add_mimic (r_mimic r) o; r_limits := aset (r_limits r) (ci_name c) (joint_limits (uj_limits j0) (limits_joint stod c));
            r_soft := match soft_limits (uj_limits j0) (limits_joint stod c) with Some s => aset (r_soft r) (ci_name c) s | None => r_soft r end |}).
      { intros [Cm H]. destruct (uj_fixed j) eqn:Fx; [discriminate|]. injection H as <-. exists None, j. unfold add_mimic. rewrite app_nil_r. split; [|split; reflexivity]. exists j. split; [reflexivity|]. split; [exact Fx|]. left. repeat split; assumption. }
      destruct (ci_mimic c) eqn:Cm; cbn [bind]; intro H; try discriminate; apply C; (split; [congruence|exact H]).
  - intros (o & j' & (j1 & E1 & Fx & H) & E & ->). injection E as <-. injection E1 as <-. destruct H as [(M & Cm & ->)|[(M & Cm & ->)|(n & m & M & Cm & Cc & -> & Mi & K)]].
    + rewrite M, Fx. unfold add_mimic. rewrite app_nil_r. destruct (ci_mimic c); [reflexivity|congruence|reflexivity].
    + rewrite Fx, Cm. unfold add_mimic. rewrite app_nil_r. destruct (uj_mimic j) as [[[n mu] off]|]; [reflexivity|congruence].
    + rewrite M, Fx, Cc. apply joint_index_iff in K. rewrite K. cbn [bind]. destruct m; cbn in *. subst. destruct (ci_mimic c); [reflexivity|reflexivity|congruence].
Qed.
Lemma last_named_cons n c l d : last_named n (c :: l) d <-> last_named n l d \/ (d = c /\ ci_name c = n /\ forall e, In e l -> ci_name e <> n).
Proof.
  unfold last_named. split.
  - intros (l1 & l2 & E & Nd & F). destruct l1 as [|x l1]; cbn in E; injection E as -> ->; [right; repeat split; assumption|]. left. exists l1, l2. repeat split; assumption.
  - intros [(l1 & l2 & -> & Nd & F)|(-> & Nc & F)]; [exists (c :: l1), l2; repeat split; assumption|exists [], l; repeat split; assumption].
Qed.
Lemma named_dec n (l : list comp_info) : (exists d, last_named n l d) \/ (forall e, In e l -> ci_name e <> n).
Proof.
  induction l as [|c l [(d & D)|N]]; [right; intros e []|left; exists d; apply last_named_cons; left; exact D|].
  destruct (string_dec (ci_name c) n) as [E|NE]; [left; exists c; apply last_named_cons; right; repeat split; assumption|]. right. intros e [<-|I]; [exact NE|apply N; exact I].
Qed.
Lemma check_joints_run u h l : forall i r r', check_joints stod u h i l r = Some r' ->
  r_hw r' = r_hw r /\
  (exists os, List.length os = List.length l /\ r_mimic r' = r_mimic r ++ somes os /\ forall k c o, nth_error l k = Some c -> nth_error os k = Some o -> joint_agrees u h (i + k) c o) /\
  (forall n c j, last_named n l c -> aget u n = Some j -> aget (r_limits r') n = Some (joint_limits (uj_limits j) (limits_joint stod c)) /\
      (aget (r_soft r) n <> None -> u_safety (uj_limits j) <> None) -> aget (r_soft r') n = soft_limits (uj_limits j) (limits_joint stod c)) /\
  (forall n c j, last_named n l c -> aget u n = Some j -> aget (r_limits r') n = Some (joint_limits (uj_limits j) (limits_joint stod c))) /\
  (forall n, (forall c, In c l -> ci_name c <> n) -> aget (r_limits r') n = aget (r_limits r) n /\ aget (r_soft r') n = aget (r_soft r) n).
Proof.
  induction l as [|c l IH]; intros i r r' H; cbn [check_joints] in H.
  - injection H as <-. split; [reflexivity|]. split; [exists []; repeat split; [cbn; rewrite app_nil_r; reflexivity|intros [|?] ? ? E; discriminate]|].
    split; [intros n c j (l1 & l2 & E & _); destruct l1; discriminate|]. split; [intros n c j (l1 & l2 & E & _); destruct l1; discriminate|]. intros n _. split; reflexivity.
  - apply bind_some in H. destruct H as (r1 & C & H). apply check_joint_iff in C. destruct C as (o & j & Ag & A & ->). apply IH in H. destruct H as (H1 & (os & L & M & Al) & H3 & H4 & H5).
    cbn [r_hw r_mimic r_limits r_soft] in *. split; [exact H1|]. split.
    { exists (o :: os). split; [cbn; rewrite L; reflexivity|]. split.
      - rewrite M. unfold add_mimic. rewrite <- app_assoc. reflexivity.
      - intros [|k] c' o' E E'; cbn in E, E'; [injection E as <-; injection E' as <-; rewrite Nat.add_0_r; exact Ag|]. replace (i + S k)%nat with (S i + k)%nat by lia. eapply Al; eassumption. }
    assert (SS : forall n c' j', last_named n (c :: l) c' -> aget u n = Some j' -> ci_name c = n -> j' = j) by (intros n c' j' _ A' E; subst n; congruence).
    split; [|split].
    + intros n c' j' LN A' [_ S]. apply last_named_cons in LN. destruct LN as [LN|(-> & Nc & F)].
      * apply (H3 n c' j' LN A'). split; [apply (H4 n c' j' LN A')|]. intro S1. destruct (string_dec (ci_name c) n) as [E|NE].
        -- assert (j' = j) by (subst n; congruence). subst j'. unfold soft_limits in S1. destruct (u_safety (uj_limits j)); [discriminate|]. apply S. exact S1.
        -- apply S. unfold soft_limits in S1. destruct (u_safety (uj_limits j)); [|exact S1]. rewrite aget_aset_other in S1 by congruence. exact S1.
      * subst n. assert (j' = j) by congruence. subst j'. destruct (H5 _ F) as [_ H6]. rewrite H6. unfold soft_limits in *. destruct (u_safety (uj_limits j)) eqn:U; [apply aget_aset_same|].
        destruct (aget (r_soft r) (ci_name c)) eqn:Q; [|reflexivity]. exfalso. apply S; [discriminate|reflexivity].
    + intros n c' j' LN A'. apply last_named_cons in LN. destruct LN as [LN|(-> & Nc & F)]; [apply (H4 n c' j' LN A')|]. subst n. assert (j' = j) by congruence. subst j'. destruct (H5 _ F) as [H6 _]. rewrite H6. apply aget_aset_same.
    + intros n F. assert (F' : forall e, In e l -> ci_name e <> n) by (intros e I; apply F; right; exact I). destruct (H5 n F') as [-> ->]. assert (NE : ci_name c <> n) by (apply F; left; reflexivity).
      split; [apply aget_aset_other; congruence|]. destruct (soft_limits (uj_limits j) (limits_joint stod c)); [apply aget_aset_other; congruence|reflexivity].
Qed.
Lemma check_joints_total u h l : forall i r, (forall k c, nth_error l k = Some c -> exists o, joint_agrees u h (i + k) c o) -> exists r', check_joints stod u h i l r = Some r'.
Proof.
  induction l as [|c l IH]; intros i r H; cbn [check_joints]; [exists r; reflexivity|].
  destruct (H 0%nat c eq_refl) as (o & Ag). rewrite Nat.add_0_r in Ag. pose proof Ag as (j & A & _).
  assert (C : exists r1, check_joint stod u h i c r = Some r1) by (eexists; apply check_joint_iff; exists o, j; split; [exact Ag|]; split; [exact A|reflexivity]).
  destruct C as (r1 & C). rewrite C. cbn [bind]. apply IH. intros k d E. replace (S i + k)%nat with (i + S k)%nat by lia. apply H. exact E.
Qed.
Lemma check_hw_says u h r : check_hw stod u h = Some r -> robot_says stod u h r.
Proof.
  unfold check_hw. intro H. apply check_joints_run in H. cbn [r_hw r_mimic r_limits r_soft] in H. destruct H as (H1 & (os & L & M & Al) & H3 & H4 & H5). constructor.
  - exact H1.
  - exists os. repeat split; assumption.
  - intros n c j lj LN A LJ. apply limit_joint_iff in LJ. subst lj. split; [apply (H4 n c j LN A)|]. apply (H3 n c j LN A). split; [apply (H4 n c j LN A)|]. cbn. congruence.
  - intros n F. apply (H5 n F).
Qed.
Lemma check_hw_total u h : (exists r, check_hw stod u h = Some r) <-> forall i c, nth_error (h_joints h) i = Some c -> exists o, joint_agrees u h i c o.
Proof.
  split.
  - intros (r & H) i c E. apply check_hw_says in H. destruct (rs_mimic _ _ _ _ H) as (os & L & _ & Al). destruct (nth_error os i) as [o|] eqn:O; [exists o; eapply Al; eassumption|].
    apply nth_error_None in O. assert (i < List.length (h_joints h))%nat by (apply nth_error_Some; congruence). lia.
  - intro H. apply check_joints_total. exact H.
Qed.

Definition all_agree (u : list (string * urdf_joint)) (h : hw_info) : Prop := forall i c, nth_error (h_joints h) i = Some c -> exists o, joint_agrees u h i c o.
Lemma F2_forall {A B} (P : A -> B -> Prop) (Q : A -> Prop) l : (forall a, (exists b, P a b) <-> Q a) -> (exists m, Forall2 P l m) <-> Forall Q l.
Proof.
  intro E. induction l as [|x l IH]; split.
  - constructor.
  - exists []. constructor.
  - intros (m & H). inversion H; subst. constructor; [apply E; eexists; eassumption|apply IH; eexists; eassumption].
  - intro H. inversion H as [|? ? Qx Ql]; subst. apply E in Qx. destruct Qx as (b & Pb). apply IH in Ql. destruct Ql as (m & M). exists (b :: m). constructor; assumption.
Qed.
Definition go (u : urdf) (l : list xml) : outcome := of_option (match l with [] => None | _ => hs <- mapM (parse_resource stod to_int) l ;; m <- u ;; mapM (check_hw stod m) hs end).
Lemma go_answer u l rs : go u l = Answer rs <-> l <> [] /\ exists m hs, u = Some m /\ Forall2 (hw_says stod to_int) l hs /\ Forall2 (fun h r => check_hw stod m h = Some r) hs rs.
Proof.
  assert (R : forall l hs, mapM (parse_resource stod to_int) l = Some hs <-> Forall2 (hw_says stod to_int) l hs) by (intros; rewrite mapM_some; apply F2_iff; intros; apply resource_iff).
  unfold go. destruct l as [|x l]; [cbn; split; [discriminate|intros [H _]; congruence]|]. split.
  - intro H. split; [discriminate|]. destruct (mapM _ (x :: l)) as [hs|] eqn:E; [|discriminate]. destruct u as [m|]; [|discriminate]. cbn [bind] in H. destruct (mapM (check_hw stod m) hs) as [rs'|] eqn:C; [|discriminate].
    cbn in H. injection H as <-. exists m, hs. split; [reflexivity|]. split; [apply R; exact E|apply mapM_some; exact C].
  - intros [_ (m & hs & -> & H & C)]. apply R in H. rewrite H. cbn [bind]. apply mapM_some in C. rewrite C. reflexivity.
Qed.
Lemma go_never_crash u l : go u l <> NullDeref.
Proof. unfold go, of_option. destruct (match l with [] => None | _ => _ end); discriminate. Qed.
Lemma urdf_go doc u : parse_urdf stod to_int doc u =
  match doc with None => Throws | Some None => NullDeref | Some (Some root) =>
    if String.eqb (tag root) "robot" then go u (kids "ros2_control" root)
    else if String.eqb (tag root) "sdf" then match kids "model" root with [] => NullDeref | m :: _ => go u (kids "ros2_control" m) end else Throws end.
Proof. reflexivity. Qed.
Lemma answer_iff doc u rs : parse_urdf stod to_int doc u = Answer rs <-> exists root l, doc = Some (Some root) /\ control_tags root l /\ go u l = Answer rs.
Proof.
  rewrite urdf_go. split.
  - destruct doc as [[root|]|]; try discriminate. destruct (String.eqb_spec (tag root) "robot") as [E|N].
    + intro H. exists root, (kids "ros2_control" root). split; [reflexivity|]. split; [left; split; [exact E|reflexivity]|exact H].
    + destruct (String.eqb_spec (tag root) "sdf") as [E|N']; [|discriminate]. destruct (kids "model" root) as [|m r] eqn:K; [discriminate|]. intro H. exists root, (kids "ros2_control" m). split; [reflexivity|].
      split; [right; split; [exact E|]; exists m, r; split; [exact K|reflexivity]|exact H].
  - intros (root & l & -> & T & H). destruct T as [[E ->]|[E (m & r & K & ->)]]; rewrite E; [exact H|]. change (String.eqb "sdf" "robot") with false. change (String.eqb "sdf" "sdf") with true. cbv iota. rewrite K. exact H.
Qed.
Lemma main_answer doc u rs : parse_urdf stod to_int doc u = Answer rs ->
  exists root l m hs, doc = Some (Some root) /\ control_tags root l /\ l <> [] /\ u = Some m /\ Forall2 (hw_says stod to_int) l hs /\ Forall2 (robot_says stod m) hs rs.
Proof.
  intro H. apply answer_iff in H. destruct H as (root & l & -> & T & G). apply go_answer in G. destruct G as (N & m & hs & -> & H & C). exists root, l, m, hs. split; [reflexivity|]. split; [exact T|]. split; [exact N|].
  split; [reflexivity|]. split; [exact H|]. revert C. clear. induction 1; constructor; try assumption. apply check_hw_says. assumption.
Qed.
Lemma main_accepts doc u : (exists rs, parse_urdf stod to_int doc u = Answer rs) <->
  exists root l m hs, doc = Some (Some root) /\ control_tags root l /\ l <> [] /\ u = Some m /\ Forall2 (hw_says stod to_int) l hs /\ Forall (all_agree m) hs.
Proof.
  split.
  - intros (rs & H). apply answer_iff in H. destruct H as (root & l & -> & T & G). apply go_answer in G. destruct G as (N & m & hs & -> & H & C). exists root, l, m, hs. repeat (split; [assumption || reflexivity|]).
    apply (proj1 (F2_forall (fun h r => check_hw stod m h = Some r) (all_agree m) hs (check_hw_total m))). exists rs. exact C.
  - intros (root & l & m & hs & -> & T & N & -> & H & A). apply (proj2 (F2_forall (fun h r => check_hw stod m h = Some r) (all_agree m) hs (check_hw_total m))) in A. destruct A as (rs & C).
    exists rs. apply answer_iff. exists root, l. split; [reflexivity|]. split; [exact T|]. apply go_answer. split; [exact N|]. exists m, hs. repeat split; assumption.
Qed.
Lemma main_crash doc u : parse_urdf stod to_int doc u = NullDeref <-> doc = Some None \/ exists root, doc = Some (Some root) /\ tag root = "sdf" /\ kids "model" root = [].
Proof.
  rewrite urdf_go. split.
  - destruct doc as [[root|]|]; [|left; reflexivity|discriminate]. destruct (String.eqb (tag root) "robot"); [intro H; exfalso; eapply go_never_crash; exact H|].
    destruct (String.eqb_spec (tag root) "sdf") as [E|]; [|discriminate]. destruct (kids "model" root) eqn:K; [|intro H; exfalso; eapply go_never_crash; exact H]. intros _. right. exists root. repeat split; assumption.
  - intros [->|(root & -> & E & K)]; [reflexivity|]. rewrite E, K. reflexivity.
Qed.
(** mimic joints of an answer *)
Lemma main_mimic u h r m : robot_says stod u h r -> In m (r_mimic r) ->
  exists c d j n, nth_error (h_joints h) (m_joint m) = Some c /\ nth_error (h_joints h) (m_mimicked m) = Some d /\ aget u (ci_name c) = Some j /\ uj_mimic j = Some (n, m_mult m, m_off m) /\
    ci_name d = n /\ ci_cmds c = [] /\ ci_mimic c <> MFalse.
Proof.
  intros R I. destruct (rs_mimic _ _ _ _ R) as (os & L & M & Al). rewrite M in I. unfold somes in I. apply in_flat_map in I. destruct I as (om & I & Im). destruct om as [m'|]; [|destruct Im]. destruct Im as [Em|[]]. subst m'. apply In_nth_error in I. destruct I as (i & O).
  assert (B : (i < List.length (h_joints h))%nat) by (rewrite <- L; apply nth_error_Some; congruence). destruct (nth_error (h_joints h) i) as [c|] eqn:C; [|apply nth_error_None in C; lia].
  destruct (Al _ _ _ C O) as (j & A & _ & [(_ & _ & E)|[(_ & _ & E)|(n & m' & Mj & Cm & Cc & E & Mi & (d & D & Nd & _))]]); try discriminate. injection E as <-.
  exists c, d, j, n. rewrite Mi. repeat split; assumption.
Qed.
End P.

(** interface descriptions *)
Lemma insert_aget m d n : aget (insert_new m d) n = match aget m n with Some v => Some v | None => if String.eqb n (fst d) then Some (snd d) else None end.
Proof.
  unfold insert_new. destruct d as [k v]. cbn [fst snd]. destruct (aget m k) as [w|] eqn:E.
  - destruct (aget m n) eqn:N; [reflexivity|]. destruct (String.eqb_spec n k) as [->|]; [congruence|reflexivity].
  - assert (A : forall l : list (string * itf_info), aget (l ++ [(k, v)]) n = match aget l n with Some x => Some x | None => if String.eqb n k then Some v else None end).
    { induction l as [|[a b] l IH]; cbn; [reflexivity|]. destruct (String.eqb n a); [reflexivity|exact IH]. }
    apply A.
Qed.
Lemma fold_insert l : forall m n, aget (fold_left insert_new l m) n = match aget m n with Some v => Some v | None => aget l n end.
Proof.
  induction l as [|[k v] l IH]; intros m n; cbn [fold_left]; [destruct (aget m n); reflexivity|]. rewrite IH, insert_aget. cbn. destruct (aget m n); [reflexivity|]. destruct (String.eqb n k); reflexivity.
Qed.
Lemma main_described sel m l n : aget (describe_into sel m l) n = match aget m n with Some v => Some v | None => aget (descriptions sel l) n end.
Proof. apply fold_insert. Qed.
Lemma aget_some_in {A} (m : list (string * A)) n v : aget m n = Some v -> In (n, v) m.
Proof. induction m as [|[k w] m IH]; cbn; [discriminate|]. destruct (String.eqb_spec n k) as [->|]; [intro H; injection H as ->; left; reflexivity|right; apply IH; assumption]. Qed.
Lemma in_aget {A} (m : list (string * A)) n v : In (n, v) m -> exists w, aget m n = Some w.
Proof. induction m as [|[k w] m IH]; cbn; [intros []|]. intros [E|I]; [injection E as -> ->; rewrite String.eqb_refl; eexists; reflexivity|]. destruct (String.eqb n k); [eexists; reflexivity|apply IH; exact I]. Qed.
Lemma in_descriptions sel l n i : In (n, i) (descriptions sel l) <-> exists c, In c l /\ In i (sel c) /\ n = (ci_name c ++ "/" ++ ii_name i)%string.
Proof.
  unfold descriptions. rewrite in_flat_map. split.
  - intros (c & C & H). apply in_map_iff in H. destruct H as (i' & E & I). injection E as <- <-. exists c. repeat split; assumption.
  - intros (c & C & I & ->). exists c. split; [exact C|]. apply in_map_iff. exists i. split; [reflexivity|exact I].
Qed.
Lemma main_map sel l n : (exists i, aget (describe_into sel [] l) n = Some i) <-> exists c i, In c l /\ In i (sel c) /\ n = (ci_name c ++ "/" ++ ii_name i)%string.
Proof.
  rewrite main_described. cbn. split.
  - intros (i & H). apply aget_some_in, in_descriptions in H. destruct H as (c & H). exists c, i. exact H.
  - intros (c & i & H). apply (in_aget _ _ i), in_descriptions. exists c. exact H.
Qed.
