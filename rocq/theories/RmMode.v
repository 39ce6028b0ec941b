(** RmMode.v -- command-mode switches (C11). *)
From Verif Require Import Base Events HwModel RmModel RmSys RmSpec HwProofs RmProofs RmInv.

Lemma In_common hw req k : In k (common_itfs hw req) <-> In k req /\ In k hw.
Proof.
  unfold common_itfs. destruct (Nat.ltb _ _); rewrite filter_In, mem_In; tauto.
Qed.

Lemma concerned_dec h start stop : (common_itfs (h_cmd h) start = [] /\ common_itfs (h_cmd h) stop = [] /\ ~ concerned h start stop)
  \/ (~ (common_itfs (h_cmd h) start = [] /\ common_itfs (h_cmd h) stop = []) /\ concerned h start stop).
Proof.
  pose proof (In_common (h_cmd h) start) as A. pose proof (In_common (h_cmd h) stop) as B.
  destruct (common_itfs (h_cmd h) start) as [|k l] eqn:E1; [destruct (common_itfs (h_cmd h) stop) as [|k l] eqn:E2|].
  - left. repeat split. intros (k & K1 & [K2|K2]); [apply (A k)|apply (B k)]; auto.
  - right. split; [intros [_ ?]; discriminate|]. exists k. destruct (B k) as [B1 _]. destruct B1; [left; reflexivity|]. auto.
  - right. split; [intros [? _]; discriminate|]. exists k. destruct (A k) as [A1 _]. destruct A1; [left; reflexivity|]. auto.
Qed.

Lemma mode_call_event e op t n s p : mode_call e op t n s p =
  (match op with MPrepare => e_prepare e t n s p | MPerform => e_perform e t n s p end,
   mode_event op n s p (match op with MPrepare => e_prepare e t n s p | MPerform => e_perform e t n s p end) :: t).
Proof. destruct op; reflexivity. Qed.

Definition succeeded (op : mode_op) (ev : event) : Prop := exists n s p, ev = mode_event op n s p (Ret ROk).
Definition called (op : mode_op) (n : name) (ev : event) : Prop := exists s p x, ev = mode_event op n s p x.

Lemma mode_loop_spec e op allow start stop r0 hs : (forall h, In h hs -> find_hw r0 (h_name h) = Some h /\ h_kind h <> Sensor) ->
  forall r ret, exists evs,
    rm_trace (fst (mode_loop e op allow start stop hs r ret)) = evs ++ rm_trace r /\
    Forall (forwarded op r0 start stop) evs /\
    (snd (mode_loop e op allow start stop hs r ret) = true ->
       ret = true /\ Forall (succeeded op) evs /\
       forall h, In h hs -> concerned h start stop ->
          configured (h_lc h) /\ Exists (called op (h_name h)) evs /\
          (allow = false -> (exists k, In k start /\ In k (h_cmd h)) -> h_lc h = Active)).
Proof.
  induction hs as [|h hs IH]; intros Hh r ret.
  - exists []. cbn [mode_loop fst snd]. split; [reflexivity|]. split; [constructor|]. intros X. split; [exact X|]. split; [constructor|]. intros h [].
  - assert (Hh' : forall h, In h hs -> find_hw r0 (h_name h) = Some h /\ h_kind h <> Sensor) by (intros; apply Hh; right; assumption).
    specialize (IH Hh'). destruct (Hh h (or_introl eq_refl)) as [Hf Hk]. cbn [mode_loop].
    destruct (concerned_dec h start stop) as [(E1 & E2 & Nc)|(Ne & Co)].
    + rewrite E1, E2. destruct (IH r ret) as (evs & A & B & C). exists evs. split; [exact A|]. split; [exact B|].
      intros X. destruct (C X) as (C1 & C2 & C3). split; [exact C1|]. split; [exact C2|].
      intros h' [<-|Hi] Hc; [contradiction|]. auto.
    + set (s := common_itfs (h_cmd h) start) in *. set (p := common_itfs (h_cmd h) stop) in *.
      assert (Body : exists evs, let X := (if negb (match s with [] => true | _ => false end) && lc_eqb (h_lc h) Inactive && negb allow
        then (r, false)
        else match h_lc h with
          | Inactive | Active =>
              let '(res, t') := mode_call e op (rm_trace r) (h_name h) s p in
              mode_loop e op allow start stop hs (with_trace r t') (match res with Ret ROk => ret | _ => false end)
          | _ => mode_loop e op allow start stop hs r false
          end) in
         rm_trace (fst X) = evs ++ rm_trace r /\ Forall (forwarded op r0 start stop) evs /\
         (snd X = true -> ret = true /\ Forall (succeeded op) evs /\
         forall h', In h' (h :: hs) -> concerned h' start stop ->
          configured (h_lc h') /\ Exists (called op (h_name h')) evs /\
          (allow = false -> (exists k, In k start /\ In k (h_cmd h')) -> h_lc h' = Active))).
      { destruct (negb _ && lc_eqb (h_lc h) Inactive && negb allow) eqn:Ec.
        { exists []. cbv zeta. split; [reflexivity|]. split; [constructor|]. discriminate. }
        assert (Call : configured (h_lc h) -> (allow = false -> (exists k, In k start /\ In k (h_cmd h)) -> h_lc h = Active) ->
          exists evs, let X := (let '(res, t') := mode_call e op (rm_trace r) (h_name h) s p in
              mode_loop e op allow start stop hs (with_trace r t') (match res with Ret ROk => ret | _ => false end)) in
         rm_trace (fst X) = evs ++ rm_trace r /\ Forall (forwarded op r0 start stop) evs /\
         (snd X = true -> ret = true /\ Forall (succeeded op) evs /\
         forall h', In h' (h :: hs) -> concerned h' start stop ->
          configured (h_lc h') /\ Exists (called op (h_name h')) evs /\
          (allow = false -> (exists k, In k start /\ In k (h_cmd h')) -> h_lc h' = Active))).
        { intros Hconf Hact. rewrite mode_call_event. cbv zeta beta iota.
          set (res := match op with MPrepare => e_prepare e (rm_trace r) (h_name h) s p | MPerform => e_perform e (rm_trace r) (h_name h) s p end).
          destruct (IH (with_trace r (mode_event op (h_name h) s p res :: rm_trace r)) (match res with Ret ROk => ret | _ => false end)) as (evs & A & B & C).
          exists (evs ++ [mode_event op (h_name h) s p res]). split; [rewrite A; simpl; rewrite <- app_assoc; reflexivity|].
          split.
          - apply Forall_app. split; [exact B|]. constructor; [|constructor].
            exists (h_name h), h, s, p, res. repeat (split; [first [reflexivity|assumption]|]).
            split; intros k; apply In_common.
          - intros X. destruct (C X) as (C1 & C2 & C3). destruct res as [[]|]; try discriminate.
            split; [exact C1|]. split.
            + apply Forall_app. split; [exact C2|]. constructor; [|constructor]. exists (h_name h), s, p. reflexivity.
            + intros h' [<-|Hi] Hc.
              * split; [exact Hconf|]. split; [|exact Hact]. apply Exists_app. right. constructor. exists s, p, (Ret ROk). reflexivity.
              * destruct (C3 h' Hi Hc) as (D1 & D2 & D3). split; [exact D1|]. split; [|exact D3]. apply Exists_app. left. exact D2. }
        assert (Fail : exists evs, let X := mode_loop e op allow start stop hs r false in
         rm_trace (fst X) = evs ++ rm_trace r /\ Forall (forwarded op r0 start stop) evs /\
         (snd X = true -> ret = true /\ Forall (succeeded op) evs /\
         forall h', In h' (h :: hs) -> concerned h' start stop ->
          configured (h_lc h') /\ Exists (called op (h_name h')) evs /\
          (allow = false -> (exists k, In k start /\ In k (h_cmd h')) -> h_lc h' = Active))).
        { destruct (IH r false) as (evs & A & B & C). exists evs. split; [exact A|]. split; [exact B|].
          intros X. destruct (C X) as (C1 & _). discriminate. }
        destruct (h_lc h) eqn:El; try exact Fail.
        - apply Call; [left; reflexivity|]. intros Ha (k & K1 & K2). exfalso. subst allow. simpl in Ec.
          assert (Ks : In k s) by (apply In_common; auto). destruct s; [contradiction|]. discriminate.
        - apply Call; [right; reflexivity|auto]. }
      destruct s as [|k0 s0]; [|exact Body]. destruct p as [|k1 p0]; [elim Ne; split; reflexivity|exact Body].
Qed.

Lemma mode_two e op allow start stop r : names_ok r ->
  let x := mode_loop e op allow start stop (filter is_actuator (rm_hw r)) r true in
  let y := mode_loop e op allow start stop (filter is_system (rm_hw r)) (fst x) true in
  exists evs, rm_trace (fst y) = evs ++ rm_trace r /\
    Forall (forwarded op r start stop) evs /\
    (snd x && snd y = true -> Forall (succeeded op) evs /\
       forall n h, find_hw r n = Some h -> h_kind h <> Sensor -> concerned h start stop ->
          configured (h_lc h) /\ Exists (called op n) evs /\
          (allow = false -> (exists k, In k start /\ In k (h_cmd h)) -> h_lc h = Active)).
Proof.
  intros Hn x y.
  assert (F : forall p, (forall h, p h = true -> h_kind h <> Sensor) -> forall h, In h (filter p (rm_hw r)) -> find_hw r (h_name h) = Some h /\ h_kind h <> Sensor).
  { intros p Hp h Hi. apply filter_In in Hi. destruct Hi as [A B]. split; [apply In_find; assumption|auto]. }
  destruct (mode_loop_spec e op allow start stop r _ (F _ act_not_sensor) r true) as (e1 & A1 & A2 & A3). fold x in A1, A3.
  destruct (mode_loop_spec e op allow start stop r _ (F _ sysm_not_sensor) (fst x) true) as (e2 & B1 & B2 & B3). fold y in B1, B3.
  exists (e2 ++ e1). split; [rewrite B1, A1; apply app_assoc|]. split; [apply Forall_app; auto|].
  intros X. apply andb_prop in X. destruct X as [X1 X2]. destruct (A3 X1) as (_ & A4 & A5). destruct (B3 X2) as (_ & B4 & B5).
  split; [apply Forall_app; auto|]. intros n h Hf Hk Hc.
  pose proof (find_hw_In _ _ _ Hf) as Hi. pose proof (find_hw_name _ _ _ Hf) as <-.
  destruct (h_kind h) eqn:Ek; [|congruence|].
  - destruct (A5 h) as (C1 & C2 & C3); auto; [apply filter_In; split; [exact Hi|unfold is_actuator; rewrite Ek; reflexivity]|].
    split; [exact C1|]. split; [|exact C3]. apply Exists_app. right. exact C2.
  - destruct (B5 h) as (C1 & C2 & C3); auto; [apply filter_In; split; [exact Hi|unfold is_system; rewrite Ek; reflexivity]|].
    split; [exact C1|]. split; [|exact C3]. apply Exists_app. left. exact C2.
Qed.

Definition mode_ok (op : mode_op) (allow : bool) (r r' : rm) (start stop : list name) (b : bool) : Prop :=
  exists evs, rm_trace r' = evs ++ rm_trace r /\ rm_hw r' = rm_hw r /\
    Forall (forwarded op r start stop) evs /\
    (b = true -> Forall (succeeded op) evs /\
       forall n h, find_hw r n = Some h -> h_kind h <> Sensor -> concerned h start stop ->
          configured (h_lc h) /\ Exists (called op n) evs /\
          (allow = false -> (exists k, In k start /\ In k (h_cmd h)) -> h_lc h = Active)).

Lemma both_empty_true a b : both_empty a b = true -> a = [] /\ b = [].
Proof. destruct a, b; simpl; try discriminate. auto. Qed.

Lemma mode_ok_nothing op allow r start stop : both_empty start stop = true -> mode_ok op allow r r start stop true.
Proof.
  intros H. apply both_empty_true in H. destruct H as [-> ->]. exists []. split; [reflexivity|]. split; [reflexivity|]. split; [constructor|].
  intros _. split; [constructor|]. intros n h _ _ (k & _ & [[]|[]]).
Qed.
Lemma mode_ok_refused op allow r start stop : mode_ok op allow r r start stop false.
Proof. exists []. repeat split; try constructor; discriminate. Qed.

Lemma rm_prepare_spec e allow r start stop : names_ok r ->
  mode_ok MPrepare allow r (fst (rm_prepare e allow r start stop)) start stop (snd (rm_prepare e allow r start stop)) /\
  (snd (rm_prepare e allow r start stop) = true ->
     forall k, In k start \/ In k stop -> In k (rm_ckeys r) /\ In k (rm_avc r)).
Proof.
  intros Hn. destruct (rm_prepare_evolve e allow r start stop Hn) as [_ Hw]. unfold rm_prepare in *.
  destruct (both_empty start stop) eqn:Eb.
  { split; [apply mode_ok_nothing; exact Eb|]. apply both_empty_true in Eb. destruct Eb as [-> ->]. intros _ k [[]|[]]. }
  destruct (negb (forallb (cmd_exists r) start && _)) eqn:E1; [split; [apply mode_ok_refused|discriminate]|].
  destruct (negb (forallb (cmd_available r) start && _)) eqn:E2; [split; [apply mode_ok_refused|discriminate]|].
  split.
  - destruct (mode_two e MPrepare allow start stop r Hn) as (evs & A & B & C).
    destruct (mode_loop e MPrepare allow start stop (filter is_actuator (rm_hw r)) r true) as [r1 a].
    cbn [fst snd] in *.
    destruct (mode_loop e MPrepare allow start stop (filter is_system (rm_hw r)) r1 true) as [r2 b].
    cbn [fst snd] in *. exists evs. auto.
  - intros _ k Hk. apply negb_false_iff in E1, E2. apply andb_prop in E1, E2. rewrite !forallb_forall in E1, E2.
    unfold cmd_exists, cmd_available in *. setoid_rewrite mem_In in E1. setoid_rewrite mem_In in E2.
    destruct E1, E2, Hk; auto.
Qed.

Lemma rm_perform_spec e allow r start stop : names_ok r ->
  mode_ok MPerform allow r (fst (rm_perform e allow r start stop)) start stop (snd (rm_perform e allow r start stop)).
Proof.
  intros Hn. destruct (rm_perform_evolve e allow r start stop Hn) as [_ Hw]. unfold rm_perform in *.
  destruct (both_empty start stop) eqn:Eb; [apply mode_ok_nothing; exact Eb|].
  destruct (mode_two e MPerform allow start stop r Hn) as (evs & A & B & C).
  destruct (mode_loop e MPerform allow start stop (filter is_actuator (rm_hw r)) r true) as [r1 a].
  cbn [fst snd] in *.
  destruct (mode_loop e MPerform allow start stop (filter is_system (rm_hw r)) r1 true) as [r2 b].
  cbn [fst snd] in *. exists evs. auto.
Qed.
