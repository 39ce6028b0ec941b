(** Props_Fallback.v -- C25, second half, for fallback controllers that are chainable or use what other controllers export. *)
From Verif Require Import Base Events HwModel RmModel RmSys RmSpec RmWitness ChainModel CmModel CmPrim ChainSpec CmReach CmSpec CmWitness UpdateSpec ExportSpec RefExclSpec CmRefExcl FallbackSpec CmFallback2 Props_Update.
Open Scope string_scope. Open Scope list_scope.

(** Every fallback of this step that is loaded, configured and asks by name for interfaces that can be had is active
    afterwards -- interfaces of the hardware, of other fallbacks of the step, of controllers that keep running, also when
    another controller holds them now (FallbackSpec.v) -- if no two of them want the same command interface and the
    callbacks succeed.  Missing for the full claim: fallbacks that ask for "all" interfaces, and those that
    are active but command nothing; reference interfaces that were rebuilt while held (RefExclSpec.v). *)
Theorem c25_fallback_chained_partial : forall e allow hs ops m m' o,
  wf_hw hs -> crun e allow (cm_start hs) ops = Val m -> cstep e allow m CUpdate = Val (m', o) -> callbacks_succeed e ->
  (forall f, fallback_for m m' f -> ready_fallback m m' (undisturbed e allow hs ops) f) ->
  (forall c1 c2 k, In c1 (cm_ctrls m) -> In c2 (cm_ctrls m) ->
     fallback_for m m' (c_name c1) -> fallback_for m m' (c_name c2) -> c_name c1 <> c_name c2 ->
     wants_cmd m c1 k -> ~ wants_cmd m c2 k) ->
  forall f, fallback_for m m' f -> state_in m' f = Some Active.
Proof. exact main_fallback_chained. Qed.
Print Assumptions c25_fallback_chained_partial.

(** P fails; its fallbacks are S and the chainable G that S commands.  L fails; its fallback S commands G, which keeps running.
    R commands G and fails; its fallbacks are S, which commands G too, and G. *)
Definition fP := ctl "P" false ["a/position"] [] [] [] ["S"; "G"].
Definition fS := ctl "S" false ["G/ref"] ["G/est"] [] [] [].
Definition fG := ctl "G" true ["a/position"] ["a/position"] ["G/ref"] ["G/est"] [].
Definition fL := ctl "L" false ["g/position"] [] [] [] ["S"].
Definition ops_both := up_hw ++ load_conf [fG; fS; fP] ++ switch ["P"] [] true.
Definition fR := ctl "R" false ["G/ref"] [] [] [] ["S"; "G"].
Definition ops_chain := up_hw ++ load_conf [fG; fS; fR] ++ switch ["R"; "G"] [] true.
Definition ops_one := up_hw ++ load_conf [fG; fS; fL] ++ switch ["G"] [] true ++ switch ["L"] [] true.
(** All three cases meet every hypothesis. *)
Definition case_of (e : env) (ops : list cop) (main : name) (fbs : list name) : Prop := exists m m' o,
  crun e true (cm_start plain) ops = Val m /\ cstep e true m CUpdate = Val (m', o) /\ callbacks_succeed e /\
  taken_out m m' main /\ (forall f, fallback_for m m' f <-> In f fbs) /\
  (forall f, fallback_for m m' f -> ready_fallback m m' (undisturbed e true plain ops) f) /\
  (forall c1 c2 k, In c1 (cm_ctrls m) -> In c2 (cm_ctrls m) -> fallback_for m m' (c_name c1) -> fallback_for m m' (c_name c2) -> c_name c1 <> c_name c2 -> wants_cmd m c1 k -> ~ wants_cmd m c2 k) /\
  state_in m main = Some Active /\ map (state_in m') (main :: fbs) = Some Inactive :: map (fun _ => Some Active) fbs.
Ltac known := repeat first [left; reflexivity | right].
Example c25_both_fallbacks : case_of (fails ["P"]) ops_both "P" ["S"; "G"].
Proof.
  do 3 eexists. split; [vm_compute; reflexivity|]. split; [vm_compute; reflexivity|]. split; [intros t n cb; reflexivity|].
  match goal with |- taken_out ?a ?b _ /\ _ => set (m := a); set (m' := b) end.
  assert (T : taken_out m m' "P").
  { eexists. split; [right; right; left; reflexivity|]. split; [|left; reflexivity].
    exists (firstn (length (rm_trace (cm_rm m')) - S (length (rm_trace (cm_rm m)))) (rm_trace (cm_rm m'))), (Ret RError).
    split; [vm_compute; reflexivity|]. split; [vm_compute; known|discriminate]. }
  assert (FB : forall f, fallback_for m m' f <-> In f ["S"; "G"]).
  { intros f. split.
    - intros (d & [<-|[<-|[<-|[]]]] & _ & H); [destruct H|destruct H|exact H].
    - intros H. eexists. split; [right; right; left; reflexivity|]. split; [exact T|exact H]. }
  split; [exact T|]. split; [exact FB|]. split; [|split].
  - intros f Hf. apply FB in Hf. destruct Hf as [<-|[<-|[]]].
    + eexists. split; [right; left; reflexivity|]. split; [reflexivity|]. split; [left; reflexivity|].
      split; [exists ["G/ref"], ["G/est"]; split; [reflexivity|split; [reflexivity|repeat constructor; intros []]]|]. split.
      * intros k [<-|[]]. right. split; [apply undisturbed_check; vm_compute; reflexivity|].
        split; [exists "G", ["G/ref"]; split; [reflexivity|split; [left; reflexivity|left; apply FB; right; left; reflexivity]]|left; reflexivity].
      * intros k [<-|[]]. right. exists "G", ["G/est"]. split; [reflexivity|split; [left; reflexivity|left; apply FB; right; left; reflexivity]].
    + eexists. split; [left; reflexivity|]. split; [reflexivity|]. split; [left; reflexivity|].
      split; [exists ["a/position"], ["a/position"]; split; [reflexivity|split; [reflexivity|repeat constructor; intros []]]|]. split.
      * intros k [<-|[]]. left. split; vm_compute; known.
      * intros k [<-|[]]. left. split; vm_compute; known.
  - intros c1 c2 k [<-|[<-|[<-|[]]]] [<-|[<-|[<-|[]]]] H1 H2 Ne [<-|[]] W; try (apply FB in H1; cbn in H1; destruct H1 as [H1|[H1|[]]]; discriminate H1);
      try (apply FB in H2; cbn in H2; destruct H2 as [H2|[H2|[]]]; discriminate H2); try (destruct W as [W|[]]; discriminate W); apply Ne; reflexivity.
  - split; vm_compute; reflexivity.
Qed.
Example c25_chained_to_running : case_of (fails ["L"]) ops_one "L" ["S"].
Proof.
  do 3 eexists. split; [vm_compute; reflexivity|]. split; [vm_compute; reflexivity|]. split; [intros t n cb; reflexivity|].
  match goal with |- taken_out ?a ?b _ /\ _ => set (m := a); set (m' := b) end.
  assert (T : taken_out m m' "L").
  { eexists. split; [right; right; left; reflexivity|]. split; [|left; reflexivity].
    exists (firstn (length (rm_trace (cm_rm m')) - S (length (rm_trace (cm_rm m)))) (rm_trace (cm_rm m'))), (Ret RError).
    split; [vm_compute; reflexivity|]. split; [vm_compute; known|discriminate]. }
  assert (FB : forall f, fallback_for m m' f <-> In f ["S"]).
  { intros f. split.
    - intros (d & [<-|[<-|[<-|[]]]] & _ & H); [destruct H|destruct H|exact H].
    - intros H. eexists. split; [right; right; left; reflexivity|]. split; [exact T|exact H]. }
  split; [exact T|]. split; [exact FB|]. split; [|split].
  - intros f Hf. apply FB in Hf. destruct Hf as [<-|[]].
    eexists. split; [right; left; reflexivity|]. split; [reflexivity|]. split; [left; reflexivity|].
    split; [exists ["G/ref"], ["G/est"]; split; [reflexivity|split; [reflexivity|repeat constructor; intros []]]|]. split.
    + intros k [<-|[]]. right. split; [apply undisturbed_check; vm_compute; reflexivity|].
      split; [exists "G", ["G/ref"]; split; [reflexivity|split; [left; reflexivity|right; reflexivity]]|left; reflexivity].
    + intros k [<-|[]]. right. exists "G", ["G/est"]. split; [reflexivity|split; [left; reflexivity|right; reflexivity]].
  - intros c1 c2 k [<-|[<-|[<-|[]]]] [<-|[<-|[<-|[]]]] H1 H2 Ne [<-|[]] W; try (apply FB in H1; cbn in H1; destruct H1 as [H1|[]]; discriminate H1);
      try (apply FB in H2; cbn in H2; destruct H2 as [H2|[]]; discriminate H2); try (destruct W as [W|[]]; discriminate W); apply Ne; reflexivity.
  - split; vm_compute; reflexivity.
Qed.

Example c25_chain_taken_over : case_of (fails ["R"]) ops_chain "R" ["S"; "G"].
Proof.
  do 3 eexists. split; [vm_compute; reflexivity|]. split; [vm_compute; reflexivity|]. split; [intros t n cb; reflexivity|].
  match goal with |- taken_out ?a ?b _ /\ _ => set (m := a); set (m' := b) end.
  assert (IR : exists r, In r (cm_ctrls m) /\ c_name r = "R" /\ c_fallback r = ["S"; "G"] /\ mem "R" (c_group r) = true) by (eexists; split; [apply (find_in_In (cm_ctrls m) "R"); vm_compute; reflexivity|vm_compute; auto]).
  assert (IG : exists c, In c (cm_ctrls m) /\ c_name c = "G" /\ c_lc c = Active /\ c_cmd c = IIndividual ["a/position"] /\ c_state c = IIndividual ["a/position"]) by (eexists; split; [apply (find_in_In (cm_ctrls m) "G"); vm_compute; reflexivity|vm_compute; auto]).
  assert (IS : exists c, In c (cm_ctrls m) /\ c_name c = "S" /\ c_lc c = Inactive /\ c_cmd c = IIndividual ["G/ref"] /\ c_state c = IIndividual ["G/est"]) by (eexists; split; [apply (find_in_In (cm_ctrls m) "S"); vm_compute; reflexivity|vm_compute; auto]).
  assert (T : taken_out m m' "R").
  { destruct IR as (r & Ir & Nr & _ & Gr). exists r. split; [exact Ir|]. rewrite Nr. split; [|apply mem_In; exact Gr].
    exists (firstn (length (rm_trace (cm_rm m')) - S (length (rm_trace (cm_rm m)))) (rm_trace (cm_rm m'))), (Ret RError).
    split; [vm_compute; reflexivity|]. split; [vm_compute; known|discriminate]. }
  assert (FB : forall f, fallback_for m m' f <-> In f ["S"; "G"]).
  { intros f. split.
    - intros (d & Hd & _ & H). assert (X : forallb (fun d => match c_fallback d with [] => true | l => forallb (fun f => mem f ["S"; "G"]) l end) (cm_ctrls m) = true) by (vm_compute; reflexivity).
      rewrite forallb_forall in X. specialize (X d Hd). destruct (c_fallback d) as [|x l]; [destruct H|]. rewrite forallb_forall in X. apply mem_In. exact (X f H).
    - intros H. destruct IR as (r & Ir & Nr & Fr & _). exists r. rewrite Nr, Fr. auto. }
  split; [exact T|]. split; [exact FB|]. split; [|split].
  - intros f Hf. apply FB in Hf. destruct Hf as [<-|[<-|[]]].
    + destruct IS as (c & Ic & Nc & Lc & Cc & Sc). exists c. split; [exact Ic|]. split; [exact Nc|]. split; [left; exact Lc|].
      split; [exists ["G/ref"], ["G/est"]; split; [exact Cc|split; [exact Sc|repeat constructor; intros []]]|].
      unfold wants_cmd, wants_state, cmd_names, state_names. rewrite Cc, Sc. split.
      * intros k [<-|[]]. right. split; [apply undisturbed_check; vm_compute; reflexivity|].
        split; [exists "G", ["G/ref"]; split; [reflexivity|split; [left; reflexivity|left; apply FB; right; left; reflexivity]]|].
        right. split; [vm_compute; known|]. assert (X : existsb (fun c => mem "G/ref" (c_cloans c)) (cm_ctrls m) = true) by (vm_compute; reflexivity).
        apply existsb_exists in X. destruct X as (h & Ih & Kh). exists h. split; [exact Ih|apply mem_In; exact Kh].
      * intros k [<-|[]]. right. exists "G", ["G/est"]. split; [reflexivity|split; [left; reflexivity|left; apply FB; right; left; reflexivity]].
    + destruct IG as (c & Ic & Nc & Lc & Cc & Sc). exists c. split; [exact Ic|]. split; [exact Nc|].
      unfold wants_cmd, wants_state, cmd_names, state_names. rewrite Cc, Sc. split; [right; split; [exact Lc|exists "a/position"; left; reflexivity]|].
      split; [exists ["a/position"], ["a/position"]; split; [exact Cc|split; [exact Sc|repeat constructor; intros []]]|]. split.
      * intros k [<-|[]]. left. split; vm_compute; known.
      * intros k [<-|[]]. left. split; vm_compute; known.
  - intros c1 c2 k I1 I2 H1 H2 Ne. apply FB in H1. apply FB in H2.
    assert (X : forallb (fun a => forallb (fun b => if mem (c_name a) ["S"; "G"] && mem (c_name b) ["S"; "G"] && negb (String.eqb (c_name a) (c_name b)) then
       forallb (fun k => negb (mem k (cmd_names (cm_rm m) b))) (cmd_names (cm_rm m) a) else true) (cm_ctrls m)) (cm_ctrls m) = true) by (vm_compute; reflexivity).
    rewrite forallb_forall in X. specialize (X c1 I1). rewrite forallb_forall in X. specialize (X c2 I2). apply mem_In in H1. apply mem_In in H2.
    rewrite H1, H2, (proj2 (String.eqb_neq _ _) Ne) in X. cbn [andb negb] in X. rewrite forallb_forall in X. intros W1 W2. specialize (X k W1). apply mem_In in W2. rewrite W2 in X. discriminate X.
  - split; vm_compute; reflexivity.
Qed.

(** What one could expect and is not so: a chainable controller whose reference is commanded by a started fallback is not in
    chained mode, whether it was started together with that fallback, was running, or ran in chained mode before: update()
    starts fallbacks without switching modes, so G goes on reading its references from its subscribers. *)
Theorem c25_chained_mode_refuted : forall ops main, In (ops, main) [(ops_both, "P"); (ops_one, "L"); (ops_chain, "R")] -> exists m m' s g,
  crun (fails [main]) true (cm_start plain) ops = Val m /\ callbacks_succeed (fails [main]) /\
  state_in m main = Some Active /\ cstep (fails [main]) true m CUpdate = Val (m', CNone) /\
  In s (cm_ctrls m') /\ In g (cm_ctrls m') /\ c_lc s = Active /\ c_lc g = Active /\ In "G/ref" (c_cloans s) /\ In "G/ref" (c_refs g) /\ c_chained g = false.
Proof.
  assert (W : forall ms, existsb (fun s => existsb (fun g => is_lc Active s && is_lc Active g && mem "G/ref" (c_cloans s) && mem "G/ref" (c_refs g) && negb (c_chained g)) (cm_ctrls ms)) (cm_ctrls ms) = true ->
    exists s g, In s (cm_ctrls ms) /\ In g (cm_ctrls ms) /\ c_lc s = Active /\ c_lc g = Active /\ In "G/ref" (c_cloans s) /\ In "G/ref" (c_refs g) /\ c_chained g = false).
  { intros ms H. apply existsb_exists in H. destruct H as (s & Is & H). apply existsb_exists in H. destruct H as (g & Ig & H).
    apply andb_prop in H. destruct H as [H H5]. apply andb_prop in H. destruct H as [H H4]. apply andb_prop in H. destruct H as [H H3]. apply andb_prop in H. destruct H as [H1 H2].
    exists s, g. unfold is_lc in *. apply lc_eqb_eq in H1. apply lc_eqb_eq in H2. apply mem_In in H3. apply mem_In in H4. destruct (c_chained g); [discriminate|]. auto 8. }
  assert (D : forall ops main, (exists m m', crun (fails [main]) true (cm_start plain) ops = Val m /\ state_in m main = Some Active /\ cstep (fails [main]) true m CUpdate = Val (m', CNone) /\
     existsb (fun s => existsb (fun g => is_lc Active s && is_lc Active g && mem "G/ref" (c_cloans s) && mem "G/ref" (c_refs g) && negb (c_chained g)) (cm_ctrls m')) (cm_ctrls m') = true) ->
     exists m m' s g, crun (fails [main]) true (cm_start plain) ops = Val m /\ callbacks_succeed (fails [main]) /\ state_in m main = Some Active /\
       cstep (fails [main]) true m CUpdate = Val (m', CNone) /\
       In s (cm_ctrls m') /\ In g (cm_ctrls m') /\ c_lc s = Active /\ c_lc g = Active /\ In "G/ref" (c_cloans s) /\ In "G/ref" (c_refs g) /\ c_chained g = false).
  { intros ops main (m & m' & A & B & C & H). destruct (W m' H) as (s & g & H'). exists m, m', s, g. split; [exact A|]. split; [intros t n cb; reflexivity|]. split; [exact B|]. split; [exact C|exact H']. }
  intros ops main [[= <- <-]|[[= <- <-]|[[= <- <-]|[]]]]; apply D; do 2 eexists; (split; [vm_compute; reflexivity|]); (split; [vm_compute; reflexivity|]); (split; [vm_compute; reflexivity|]); vm_compute; reflexivity.
Qed.
Print Assumptions c25_chained_mode_refuted.
