(** FilesProofs.v -- the loops of FilesModel compute what FilesSpec says. *)
From Coq Require Import String List Bool.
From Verif Require Import FilesModel FilesSpec.
Import ListNotations.
Open Scope string_scope. Open Scope list_scope.

Lemma look_has y k v : look y k = Some (Some v) <-> has y k v.
Proof.
  split.
  - destruct y as [|t|l]; try discriminate. cbn. intros [= E]. exists l. auto.
  - intros (l & -> & E). cbn. rewrite E. reflexivity.
Qed.
Lemma look_lacks y k : look y k = Some None <-> lacks y k.
Proof.
  split.
  - destruct y as [|t|l]; try discriminate. cbn. intros [= E]. exists l. auto.
  - intros (l & -> & E). cbn. rewrite E. reflexivity.
Qed.
Lemma has_fun y k v v' : has y k v -> has y k v' -> v = v'.
Proof. intros A B. apply look_has in A, B. congruence. Qed.
Lemma has_lacks y k v : has y k v -> lacks y k -> False.
Proof. intros A B. apply look_has in A. apply look_lacks in B. congruence. Qed.

Lemma keys_names ns n : keys ns n = key_names ns n.
Proof. unfold keys, key_names, in_ns. destruct (String.eqb ns "/"); reflexivity. Qed.
Section F.
Variables (ns n : string).
Lemma find_some doc k x : find_section ns n doc k = Some x ->
  match x with
  | Unscoped => k = n /\ unscoped ns n doc
  | Section s => section_for doc k s
  | Nothing => forall s, ~ section_for doc k s
  end.
Proof.
  unfold find_section. intros H. destruct (look doc k) as [[s|]|] eqn:E; [| |discriminate].
  - apply look_has in E. destruct (String.eqb_spec k n) as [->|N]; cbn [andb] in H.
    + destruct (String.eqb_spec ns "/") as [Es|M].
      * injection H as <-. left. exact E.
      * injection H as <-. split; [reflexivity|]. split; [exact M|eauto].
    + injection H as <-; cbv iota. left. exact E.
  - apply look_lacks in E. destruct (look doc wildcard) as [[w|]|] eqn:W; [| |discriminate].
    + apply look_has in W. destruct (look w k) as [[s|]|] eqn:K; [| |discriminate].
      * apply look_has in K. injection H as <-; cbv iota. right. split; [exact E|]. exists w. auto.
      * apply look_lacks in K. destruct (look w ros_params) as [[r|]|] eqn:R; [| |discriminate]; injection H as <-; cbv iota.
        { apply look_has in R. right. split; [exact E|]. exists w. split; [exact W|]. right. eauto. }
        { apply look_lacks in R. intros s [A|(_ & w' & A & [B|(B & -> & r & C)])].
          - eauto using has_lacks.
          - assert (w' = w) by (eapply has_fun; eassumption). subst. eauto using has_lacks.
          - assert (w' = w) by (eapply has_fun; eassumption). subst. eauto using has_lacks. }
    + apply look_lacks in W. injection H as <-; cbv iota. intros s [A|(_ & w' & A & _)]; eauto using has_lacks.
Qed.
Lemma section_fun doc k s s' : section_for doc k s -> section_for doc k s' -> s = s'.
Proof.
  intros [A|(A & w & W & X)] [B|(B & w' & W' & Y)].
  - eapply has_fun; eassumption.
  - exfalso. eauto using has_lacks.
  - exfalso. eauto using has_lacks.
  - assert (w' = w) by (eapply has_fun; eassumption). subst w'. destruct X as [X|(X & -> & _)], Y as [Y|(Y & -> & _)]; try reflexivity.
    + eapply has_fun; eassumption.
    + exfalso. eauto using has_lacks.
    + exfalso. eauto using has_lacks.
Qed.
Lemma first_unscoped doc : unscoped ns n doc -> find_section ns n doc n = Some Unscoped.
Proof.
  intros (N & v & H). unfold find_section. apply look_has in H. rewrite H, String.eqb_refl. destruct (String.eqb_spec ns "/") as [E|_]; [contradiction|reflexivity].
Qed.
Lemma unscoped_dec doc : unscoped ns n doc \/ ~ unscoped ns n doc.
Proof.
  destruct (String.eqb_spec ns "/") as [E|N]; [right; intros (X & _); contradiction|].
  destruct (look doc n) as [[v|]|] eqn:L.
  - left. split; [exact N|]. exists v. apply look_has. exact L.
  - right. intros (_ & v & H). apply look_has in H. congruence.
  - right. intros (_ & v & H). apply look_has in H. congruence.
Qed.
Lemma uses_free doc ks b : ~ unscoped ns n doc -> uses ns n doc ks = Some b -> (b = true <-> exists k s, In k ks /\ section_for doc k s).
Proof.
  intros NU. induction ks as [|k ks IH]; intros H; cbn [uses] in H.
  - injection H as <-. split; [discriminate|]. intros (k & s & [] & _).
  - destruct (find_section ns n doc k) as [x|] eqn:F; [|discriminate]. apply find_some in F. destruct x as [| |s].
    + specialize (IH H). rewrite IH. split; intros (k' & s & I & S).
      * exists k', s. split; [right; exact I|exact S].
      * destruct I as [<-|I]; [exfalso; exact (F s S)|eauto].
    + exfalso. exact (NU (proj2 F)).
    + injection H as <-. split; [|reflexivity]. intros _. exists k, s. split; [left; reflexivity|exact F].
Qed.
Lemma uses_ok doc b : uses ns n doc (keys ns n) = Some b -> (b = true <-> concerns ns n doc).
Proof.
  intros H. unfold concerns. rewrite <- keys_names. destruct (unscoped_dec doc) as [U|NU].
  - unfold keys in H. cbn [uses] in H. rewrite (first_unscoped doc U) in H. injection H as <-. split; [discriminate|]. intros (X & _). contradiction.
  - rewrite (uses_free doc _ b NU H). split; [auto|]. intros (_ & X). exact X.
Qed.

(** the list of files *)
Variable (read : string -> option yaml).
Definition matters (f : string) : Prop := exists doc, read f = Some doc /\ concerns ns n doc.
Lemma select_ok : forall files got out, select read ns n files got = Some out -> NoDup got -> exists new, out = got ++ new /\ NoDup out /\
  (forall f, In f new <-> In f files /\ matters f /\ ~ In f got) /\
  (NoDup (got ++ files) -> exists keep, new = filter keep files /\ forall f, In f files -> (keep f = true <-> matters f)).
Proof.
  induction files as [|f files IH]; intros got out H N; cbn [select] in H.
  - injection H as <-. exists []. rewrite app_nil_r. split; [reflexivity|]. split; [exact N|]. split.
    { intros f. split; [intros []|intros ([] & _)]. }
    intros _. exists (fun _ => true). split; [reflexivity|]. intros f [].
  - destruct (existsb (String.eqb f) got) eqn:E.
    + apply existsb_exists in E. destruct E as (g & Ig & E). apply String.eqb_eq in E. subst g.
      destruct (IH got out H N) as (new & -> & N' & P & _). exists new. split; [reflexivity|]. split; [exact N'|]. split.
      * intros g. rewrite P. cbn [In]. split; [intros (A & B & C); auto|]. intros ([<-|A] & B & C); [contradiction|auto].
      * intros ND. exfalso. apply NoDup_remove_2 in ND. apply ND. apply in_or_app. left. exact Ig.
    + assert (Nf : ~ In f got). { intros I. assert (X : existsb (String.eqb f) got = true) by (apply existsb_exists; exists f; split; [exact I|apply String.eqb_refl]). congruence. }
      destruct (read f) as [doc|] eqn:R; [|discriminate]. destruct (uses ns n doc (keys ns n)) as [b|] eqn:U; [|discriminate]. pose proof (uses_ok doc b U) as Ub.
      assert (M : b = true <-> matters f).
      { rewrite Ub. unfold matters. split; [eauto|]. intros (d & R' & C). congruence. }
      destruct b.
      * assert (N1 : NoDup (got ++ [f])). { apply NoDup_rev in N. rewrite <- (rev_involutive (got ++ [f])). apply NoDup_rev. rewrite rev_app_distr. cbn. constructor; [rewrite <- in_rev; exact Nf|exact N]. }
        destruct (IH (got ++ [f]) out H N1) as (new & -> & N' & P & Q). exists (f :: new). rewrite <- app_assoc in *. split; [reflexivity|]. split; [exact N'|]. split.
        { intros g. cbn [In]. rewrite P, in_app_iff. cbn [In]. split.
          - intros [<-|(A & B & C)]; [tauto|]. tauto.
          - intros (A & B & C). destruct (string_dec f g) as [->|D]; [auto|]. right. destruct A as [A|A]; [contradiction|]. split; [exact A|]. split; [exact B|]. intros [X|[X|[]]]; contradiction. }
        intros ND. destruct (Q ND) as (keep & -> & K). exists (fun g => (String.eqb f g || keep g)%bool). cbn [filter].
        rewrite String.eqb_refl. cbn [orb]. split.
        { f_equal. apply filter_ext_in. intros g Ig. destruct (String.eqb_spec f g) as [<-|_]; [|reflexivity]. exfalso.
          apply NoDup_remove_2 in ND. apply ND. apply in_or_app. right. exact Ig. }
        intros g [<-|Ig]; [rewrite String.eqb_refl; cbn; tauto|]. destruct (String.eqb_spec f g) as [<-|_]; [cbn; tauto|]. cbn. apply K. exact Ig.
      * destruct (IH got out H N) as (new & -> & N' & P & Q). exists new. split; [reflexivity|]. split; [exact N'|]. split.
        { intros g. rewrite P. cbn [In]. split; [intros (A & B & C); auto|]. intros ([<-|A] & B & C); [|auto]. apply M in B. discriminate. }
        intros ND. destruct (Q (NoDup_remove_1 _ _ _ ND)) as (keep & -> & K). exists (fun g => (negb (String.eqb f g) && keep g)%bool). cbn [filter]. rewrite String.eqb_refl. cbn [negb andb].
        split.
        { apply filter_ext_in. intros g Ig. destruct (String.eqb_spec f g) as [<-|_]; [|reflexivity]. exfalso. apply NoDup_remove_2 in ND. apply ND. apply in_or_app. right. exact Ig. }
        intros g [<-|Ig]; [rewrite String.eqb_refl; cbn; tauto|]. destruct (String.eqb_spec f g) as [<-|_]; [cbn; tauto|]. cbn. apply K. exact Ig.
Qed.

(** the value *)
Lemma param_sets s p x : param_of s p = Some x -> forall v, x = Some v <-> sets s p v.
Proof.
  unfold param_of. intros H v. destruct (truthy s) eqn:T.
  - destruct (look s ros_params) as [[r|]|] eqn:R; [|discriminate|discriminate]. apply look_has in R. split.
    + intros ->. exists r. split; [exact R|]. apply look_has. exact H.
    + intros (r' & A & B). assert (r' = r) by (eapply has_fun; eassumption). subst r'. apply look_has in B. congruence.
  - injection H as <-. split; [discriminate|]. intros (r & (l & -> & E) & _). destruct l; [discriminate|discriminate].
Qed.
Lemma scan_ok doc p : ~ unscoped ns n doc -> forall ks cand c, param_of cand p = Some None -> scan ns n doc p ks cand = Some c ->
  exists x, param_of c p = Some x /\ forall v, x = Some v <-> exists before k after s, ks = before ++ k :: after /\ section_for doc k s /\ sets s p v /\
    forall k' s' v', In k' before -> section_for doc k' s' -> ~ sets s' p v'.
Proof.
  intros NU. induction ks as [|k ks IH]; intros cand c Pc H; cbn [scan] in H.
  - injection H as <-. exists None. split; [exact Pc|]. intros v. split; [discriminate|]. intros (before & k & after & s & E & _). destruct before; discriminate.
  - destruct (find_section ns n doc k) as [x|] eqn:F; [|discriminate]. apply find_some in F.
    assert (Go : (forall s v, section_for doc k s -> ~ sets s p v) -> forall v,
      (exists before k' after s, ks = before ++ k' :: after /\ section_for doc k' s /\ sets s p v /\ forall k0 s' v', In k0 before -> section_for doc k0 s' -> ~ sets s' p v') <->
      (exists before k' after s, k :: ks = before ++ k' :: after /\ section_for doc k' s /\ sets s p v /\ forall k0 s' v', In k0 before -> section_for doc k0 s' -> ~ sets s' p v')).
    { intros Nk v. split; intros (before & k' & after & s & E & A & B & C).
      - exists (k :: before), k', after, s. rewrite E. split; [reflexivity|]. split; [exact A|]. split; [exact B|]. intros k0 s' v' [<-|I] X; [apply Nk; exact X|eapply C; eassumption].
      - destruct before as [|b before]; cbn in E; injection E as -> ->; [exfalso; exact (Nk s v A B)|]. exists before, k', after, s. split; [reflexivity|]. split; [exact A|]. split; [exact B|].
        intros k0 s' v' I. apply C. right. exact I. }
    destruct x as [| |s].
    + rewrite Pc in H. destruct (IH cand c Pc H) as (x & Px & Q). exists x. split; [exact Px|]. intros v. rewrite Q. apply Go. intros s w X. exfalso. exact (F s X).
    + exfalso. exact (NU (proj2 F)).
    + destruct (param_of s p) as [[v0|]|] eqn:Ps; [| |discriminate].
      * injection H as <-. exists (Some v0). split; [exact Ps|]. intros v. split.
        { intros [= ->]. exists [], k, ks, s. split; [reflexivity|]. split; [exact F|]. split; [apply (param_sets s p _ Ps); reflexivity|]. intros k' s' v' []. }
        intros (before & k' & after & s' & E & A & B & C). pose proof (proj1 (param_sets s p _ Ps v0) eq_refl) as S0. destruct before as [|b before]; cbn in E; injection E as -> ->.
        { assert (s' = s) by (eapply section_fun; eassumption). subst s'. exact (proj2 (param_sets s p _ Ps v) B). }
        exfalso. exact (C b s v0 (or_introl eq_refl) F S0).
      * destruct (IH s c Ps H) as (x & Px & Q). exists x. split; [exact Px|]. intros v. rewrite Q. apply Go. intros s' w X Y. assert (s' = s) by (eapply section_fun; eassumption). subst s'.
        apply (param_sets s p _ Ps) in Y. discriminate.
Qed.
Lemma file_ok doc p c : scan ns n doc p (keys ns n) YNull = Some c -> exists x, param_of c p = Some x /\ forall v, x = Some v <-> gives ns n doc p v.
Proof.
  intros H. unfold gives. rewrite <- keys_names. destruct (unscoped_dec doc) as [U|NU].
  - unfold keys in H. cbn [scan] in H. rewrite (first_unscoped doc U) in H. injection H as <-. exists None. split; [reflexivity|]. intros v. split; [discriminate|]. intros (X & _). contradiction.
  - destruct (scan_ok doc p NU (keys ns n) YNull c eq_refl H) as (x & Px & Q). exists x. split; [exact Px|]. intros v. rewrite Q. split; [intros X; split; [exact NU|exact X]|intros (_ & X); exact X].
Qed.
Definition silent (f p : string) : Prop := exists doc, read f = Some doc /\ forall v, ~ gives ns n doc p v.
Lemma get_ok p : forall files r, get_param read ns n p files = Some r ->
  match r with
  | Some v => exists before f after doc, files = before ++ f :: after /\ read f = Some doc /\ gives ns n doc p v /\ forall g, In g before -> silent g p
  | None => forall f, In f files -> silent f p
  end.
Proof.
  induction files as [|f files IH]; intros r H; cbn [get_param] in H.
  - injection H as <-. intros f [].
  - destruct (read f) as [doc|] eqn:R; [|discriminate]. destruct (scan ns n doc p (keys ns n) YNull) as [c|] eqn:S; [|discriminate].
    destruct (file_ok doc p c S) as (x & Px & Q). rewrite Px in H. destruct x as [v|].
    + injection H as <-. exists [], f, files, doc. split; [reflexivity|]. split; [exact R|]. split; [apply Q; reflexivity|intros g []].
    + assert (Sf : silent f p). { exists doc. split; [exact R|]. intros v G. apply Q in G. discriminate. }
      specialize (IH r H). destruct r as [v|].
      * destruct IH as (before & g & after & d & -> & A & B & C). exists (f :: before), g, after, d. split; [reflexivity|]. split; [exact A|]. split; [exact B|]. intros h [<-|I]; [exact Sf|exact (C h I)].
      * intros g [<-|I]; [exact Sf|exact (IH g I)].
Qed.
End F.
