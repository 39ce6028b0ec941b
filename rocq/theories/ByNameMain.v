(** ByNameMain.v -- the theorems about loading a controller by name. *)
From Verif Require Import Base ByNameModel ByNameSpec ByNameProofs.
Open Scope string_scope. Open Scope list_scope.

Lemma says_declare ps k k' l : k' <> k -> says (declare ps k PUnset) k' l <-> says ps k' l.
Proof. intros N. unfold says, unset. rewrite declare_get, (eqb_neq' _ _ N). destruct (aget ps k') as [[]|]; reflexivity. Qed.
Lemma files_declare ps n l : files_said (declare ps (type_key n) PUnset) n l <-> files_said ps n l.
Proof.
  destruct (keys_differ n) as (_ & _ & _ & D4 & _). unfold files_said. rewrite declare_get. fold (files_key n).
  rewrite (eqb_neq' _ _ (not_eq_sym D4)). destruct (aget ps (files_key n)) as [[]|]; reflexivity.
Qed.
Lemma type_declare ps n t : aget (declare ps (type_key n) PUnset) (type_key n) = Some (PStr t) <-> aget ps (type_key n) = Some (PStr t).
Proof. rewrite declare_get, String.eqb_refl. destruct (aget ps (type_key n)); [reflexivity|]. split; discriminate. Qed.
Lemma described_declare ps n c : described (declare ps (type_key n) PUnset) n c <-> described ps n c.
Proof.
  destruct (keys_differ n) as (D1 & D2 & _). unfold described. fold (type_key n) (fallback_key n) (args_key n).
  rewrite type_declare, files_declare, !says_declare by (apply not_eq_sym; assumption). reflexivity.
Qed.

(** one load *)
Inductive result (o : outside) (w : world) (n : name) : world * answer -> Prop :=
| res_null w' : w_ctrls w' = w_ctrls w -> defaults_added n (w_params w) (w_params w') ->
    (forall c, described (w_params w) n c -> created o w (i_type c) -> ~ In n (i_fallback c) -> ~ loaded w n ->
       o_init o (creation o (i_type c) ++ w_log w) n (node_args o c) = IOk -> False) -> result o w n (w', Null)
| res_throw w' : w_ctrls w' = w_ctrls w -> defaults_added n (w_params w) (w_params w') -> ~ typed (w_params w) n -> result o w n (w', Throws)
| res_ok w' c : w_ctrls w' = w_ctrls w ++ [c] -> defaults_added n (w_params w) (w_params w') -> described (w_params w) n c ->
    created o w (i_type c) -> ~ In n (i_fallback c) -> ~ loaded w n ->
    o_init o (creation o (i_type c) ++ w_log w) n (node_args o c) = IOk ->
    w_log w' = UInit n (node_args o c) :: creation o (i_type c) ++ w_log w -> result o w n (w', Loaded).
Lemma defaults_join n ps ps' : defaults_added n (declare ps (type_key n) PUnset) ps' -> defaults_added n ps ps'.
Proof.
  intros D k. specialize (D k). pose proof (defaults_type n ps k) as T. fold (type_key n) in *. rewrite declare_get in D, T.
  destruct (aget ps k) eqn:E.
  - destruct D as [D|[D _]]; [left; exact D|discriminate D].
  - destruct (String.eqb_spec k (type_key n)) as [->|N].
    + destruct D as [D|[D _]]; [|discriminate D]. right. split; [reflexivity|]. left. split; [reflexivity|exact D].
    + destruct D as [D|[D1 D2]]; [left; exact D|]. right. split; [reflexivity|exact D2].
Qed.
Lemma load_result o w n : result o w n (load o w n).
Proof.
  destruct (keys_differ n) as (D1 & D2 & _). unfold load. cbv zeta. set (w1 := with_params w (declare (w_params w) (type_key n) PUnset)).
  assert (G : get_str (w_params w1) (type_key n) = get_str (w_params w) (type_key n)).
  { unfold w1, get_str. cbn [with_params w_params]. rewrite declare_get, String.eqb_refl. destruct (aget (w_params w) (type_key n)); reflexivity. }
  rewrite G. destruct (get_str (w_params w) (type_key n)) as [|t|] eqn:E.
  - apply res_null; [reflexivity|apply defaults_type|]. intros c (_ & T & _) _ _ _ _. fold (type_key n) in T. unfold get_str in E. rewrite T in E. discriminate.
  - assert (T : aget (w_params w) (type_key n) = Some (PStr t)) by (unfold get_str in E; destruct (aget (w_params w) (type_key n)) as [[]|]; congruence).
    pose proof (load_typed_outcome o w1 n t) as O.
    assert (FI : forall f, In f [w] -> True) by auto.
    inversion O as [w' H1 H2 H3 EQ|w' H1 H2 H3 EQ|w' c H1 H2 H3 H4 H5 H6 H7 H8 H9 H10 H11 H12 EQ].
    + apply res_null; [exact H1|apply defaults_join; exact H2|]. intros c HD HC HF HL HI.
      assert (TT : i_type c = t) by (destruct HD as (_ & HT & _); fold (type_key n) in HT; congruence).
      apply (H3 c); auto; try (rewrite <- TT; assumption). apply described_declare. exact HD.
    + apply res_throw; [exact H1|apply defaults_join; exact H2|]. intros (_ & [l1 A] & [l2 B]). apply H3. split; [exists l1|exists l2]; apply says_declare; auto.
    + subst t. apply (res_ok o w n w' c); auto; [apply defaults_join; exact H2|]. apply described_declare. unfold described. fold (type_key n) (fallback_key n) (args_key n).
      split; [exact H4|]. split; [apply type_declare; exact T|]. split; [exact H5|]. split; [exact H6|exact H7].
  - apply res_throw; [reflexivity|apply defaults_type|]. intros ([T|[t T]] & _); fold (type_key n) in T; unfold get_str in E; [destruct T as [T|T]|]; rewrite T in E; discriminate.
Qed.

Theorem loads_when_l o w n : typed (w_params w) n ->
  (snd (load o w n) = Loaded <-> exists c, described (w_params w) n c /\ created o w (i_type c) /\ ~ In n (i_fallback c) /\ ~ loaded w n /\
     o_init o (creation o (i_type c) ++ w_log w) n (node_args o c) = IOk) /\
  snd (load o w n) <> Throws.
Proof.
  intros TY. pose proof (load_result o w n) as R. destruct (load o w n) as [w' a]. cbn [snd].
  inversion R as [w0 H1 H2 H3 E1|w0 H1 H2 H3 E1|w0 c H1 H2 H3 H4 H5 H6 H7 H8 E1]; subst.
  - split; [|discriminate]. split; [discriminate|]. intros (c & A & B & C & D & E). exfalso. exact (H3 c A B C D E).
  - contradiction.
  - split; [|discriminate]. split; [|reflexivity]. intros _. exists c. auto.
Qed.
Theorem loaded_l o w n w' : load o w n = (w', Loaded) -> exists c, described (w_params w) n c /\ ~ loaded w n /\ ~ In n (i_fallback c) /\
  w_ctrls w' = w_ctrls w ++ [c] /\ w_log w' = UInit n (node_args o c) :: creation o (i_type c) ++ w_log w /\ defaults_added n (w_params w) (w_params w').
Proof.
  intros E. pose proof (load_result o w n) as R. rewrite E in R. inversion R as [| |w0 c]; subst. exists c. auto 10.
Qed.
Theorem refused_l o w n w' a : load o w n = (w', a) -> a <> Loaded ->
  w_ctrls w' = w_ctrls w /\ defaults_added n (w_params w) (w_params w') /\ (a = Throws -> ~ typed (w_params w) n).
Proof.
  intros E N. pose proof (load_result o w n) as R. rewrite E in R. inversion R; subst; try contradiction; split; auto; split; auto; discriminate.
Qed.

(** histories *)
Definition settings_kept (o : outside) (ps : alist pval) (l : list step) : Prop :=
  NoDup (map i_name (w_ctrls (runs o (start ps) l))) /\
  forall c, In c (w_ctrls (runs o (start ps) l)) -> exists l1 l2, l = l1 ++ SLoad (i_name c) :: l2 /\
    described (w_params (runs o (start ps) l1)) (i_name c) c /\ ~ In (SUnload (i_name c)) l2.
Lemma NoDup_snoc {A} (l : list A) x : NoDup l -> ~ In x l -> NoDup (l ++ [x]).
Proof.
  intros N H. induction N as [|y l Hy N IH]; cbn; [constructor; [intros []|constructor]|]. constructor.
  - rewrite in_app_iff. intros [K|[->|[]]]; [contradiction|apply H; left; reflexivity].
  - apply IH. intros K. apply H. right. exact K.
Qed.
Theorem history_l o ps l : settings_kept o ps l.
Proof.
  induction l as [|s l IH] using rev_ind; [split; [constructor|intros c []]|].
  destruct IH as [ND IH]. unfold settings_kept, runs in *. rewrite fold_left_app. cbn [fold_left]. set (w := fold_left (do_step o) l (start ps)) in *.
  assert (OLD : forall c, In c (w_ctrls w) -> s <> SUnload (i_name c) -> exists l1 l2, l ++ [s] = l1 ++ SLoad (i_name c) :: l2 /\
     described (w_params (fold_left (do_step o) l1 (start ps))) (i_name c) c /\ ~ In (SUnload (i_name c)) l2).
  { intros c Hc NS. destruct (IH c Hc) as (l1 & l2 & -> & D & U). exists l1, (l2 ++ [s]). rewrite <- app_assoc. split; [reflexivity|]. split; [exact D|].
    rewrite in_app_iff. intros [K|[K|[]]]; [contradiction|]. subst s. apply NS. reflexivity. }
  destruct s as [n|k v|n].
  - cbn [do_step]. pose proof (load_result o w n) as R. destruct (load o w n) as [w' a]. cbn [fst].
    inversion R as [w0 H1 H2 H3 E1|w0 H1 H2 H3 E1|w0 c H1 H2 H3 H4 H5 H6 H7 H8 E1]; subst w0; rewrite H1; try (split; [exact ND|intros c0 Hc; apply OLD; [exact Hc|discriminate]]).
    assert (NC : i_name c = n) by (destruct H3 as [X _]; exact X). split.
    + rewrite map_app. cbn [map]. apply NoDup_snoc; [exact ND|]. rewrite NC. exact H6.
    + intros c0 Hc. apply in_app_or in Hc. destruct Hc as [Hc|[<-|[]]]; [apply OLD; [exact Hc|discriminate]|].
      exists l, []. rewrite NC. split; [reflexivity|]. split; [exact H3|intros []].
  - cbn [do_step with_params w_ctrls]. split; [exact ND|]. intros c Hc. apply OLD; [exact Hc|discriminate].
  - cbn [do_step w_ctrls]. split.
    + clear -ND. induction (w_ctrls w) as [|d ds IHd]; [constructor|]. cbn [map] in ND. inversion ND as [|x y H1 H2]; subst. cbn [filter].
      destruct (negb (String.eqb (i_name d) n)); [|apply IHd; exact H2]. cbn [map]. constructor; [|apply IHd; exact H2].
      intros K. apply H1. apply in_map_iff in K. destruct K as (e & E & K). apply filter_In in K. rewrite <- E. apply in_map. apply K.
    + intros c Hc. apply filter_In in Hc. destruct Hc as [Hc E]. apply OLD; [exact Hc|]. intros K. injection K as ->. rewrite String.eqb_refl in E. discriminate.
Qed.

(** ---- reading the arguments *)
Lemma read_app m l1 l2 : read_args m (l1 ++ l2) =
  (fst (read_args (fst (read_args m l1)) l2), snd (read_args m l1) ++ snd (read_args (fst (read_args m l1)) l2)).
Proof.
  revert m; induction l1 as [|s l1 IH]; intros m; cbn [read_args app fst snd]; [destruct (read_args m l2); reflexivity|].
  destruct (read_one m s) as [m1 i1]. rewrite IH. destruct (read_args m1 l1) as [m2 i2]. cbn [fst snd]. rewrite app_assoc. reflexivity.
Qed.
Lemma read_no_flag l : ~ In "--ros-args" l -> read_args Outside l = (Outside, map User l).
Proof.
  induction l as [|s l IH]; intros H; [reflexivity|]. cbn [read_args read_one].
  destruct (String.eqb_spec s "--ros-args") as [->|N]; [exfalso; apply H; left; reflexivity|]. rewrite IH by (intros K; apply H; right; exact K). reflexivity.
Qed.
Lemma with_flag_read l : open_ended l -> fst (read_args Outside (with_flag l)) = Inside /\ items (with_flag l) = items l.
Proof.
  unfold open_ended, with_flag, items. intros O. destruct (mem ros_flag l) eqn:M.
  - destruct O as [O|O]; [apply mem_In in M; contradiction|]. split; [exact O|reflexivity].
  - destruct O as [O|O].
    + rewrite read_app, (read_no_flag l O). cbn. rewrite app_nil_r. split; reflexivity.
    + rewrite read_app, O. cbn. rewrite app_nil_r. split; reflexivity.
Qed.
Lemma push_read l f v : open_ended l -> takes_value f = true -> f <> "--ros-args" -> f <> "--" ->
  fst (read_args Outside (with_flag l ++ [f; v])) = Inside /\ items (with_flag l ++ [f; v]) = items l ++ [Given f v].
Proof.
  intros O T N1 N2. destruct (with_flag_read l O) as [A B]. unfold items in *. rewrite read_app, A, B. cbn [read_args read_one fst snd].
  rewrite (eqb_neq' _ _ N1), (eqb_neq' _ _ N2), T. cbn. split; reflexivity.
Qed.
Lemma files_read fs : forall a, open_ended a ->
  open_ended (fold_left (fun a f => with_flag a ++ ["--params-file"; f]) fs a) /\
  (fs <> [] -> fst (read_args Outside (fold_left (fun a f => with_flag a ++ ["--params-file"; f]) fs a)) = Inside) /\
  items (fold_left (fun a f => with_flag a ++ ["--params-file"; f]) fs a) = items a ++ map (Given "--params-file") fs.
Proof.
  induction fs as [|f fs IH]; intros a O; cbn [fold_left map]; [rewrite app_nil_r; split; [exact O|split; [congruence|reflexivity]]|].
  destruct (push_read a "--params-file" f O) as [A B]; [reflexivity|discriminate|discriminate|].
  destruct (IH (with_flag a ++ ["--params-file"; f])) as (P & Q & R); [right; exact A|]. split; [exact P|]. split.
  - intros _. destruct fs; [exact A|]. apply Q. discriminate.
  - rewrite R, B, <- app_assoc. reflexivity.
Qed.
Theorem node_args_l o c : open_ended (o_custom o (i_type c)) -> plain_user (i_args c) ->
  items (node_args o c) = items (o_custom o (i_type c)) ++ map (Given "--params-file") (i_files c) ++
    (if o_sim o then [Given "--param" "use_sim_time:=true"] else []) ++ snd (read_args Inside (i_args c)).
Proof.
  intros O U. unfold node_args. set (a0 := o_custom o (i_type c)) in *. destruct (files_read (i_files c) a0 O) as (P & _ & R).
  set (a1 := fold_left _ (i_files c) a0) in *.
  set (a2 := if o_sim o then with_flag a1 ++ ["--param"; "use_sim_time:=true"] else a1).
  assert (P2 : open_ended a2 /\ items a2 = items a1 ++ (if o_sim o then [Given "--param" "use_sim_time:=true"] else [])).
  { unfold a2. destruct (o_sim o).
    - destruct (push_read a1 "--param" "use_sim_time:=true" P) as [A B]; [reflexivity|discriminate|discriminate|]. split; [right; exact A|exact B].
    - rewrite app_nil_r. split; [exact P|reflexivity]. }
  destruct P2 as [P2 I2]. rewrite R in I2. clearbody a2. clear R P.
  assert (F : items ((match i_args c with [] => a2 | _ => if mem ros_flag (i_args c) then a2 else a2 ++ [ros_flag] end) ++ i_args c) = items a2 ++ snd (read_args Inside (i_args c))).
  { destruct (i_args c) as [|x l] eqn:EA; [cbn [read_args snd]; rewrite !app_nil_r; reflexivity|]. set (args := x :: l) in *.
    destruct (mem ros_flag args) eqn:M.
    - apply mem_In in M. destruct U as [U|U]; [contradiction|]. cbn in U. injection U as ->. unfold args, items. rewrite read_app. cbn [snd]. f_equal.
      destruct P2 as [P2|P2]; [rewrite (read_no_flag _ P2)|rewrite P2]; reflexivity.
    - unfold items. rewrite !read_app. cbn [fst snd]. rewrite <- app_assoc. f_equal.
      assert (ST : read_args (fst (read_args Outside a2)) [ros_flag] = (Inside, [])) by (destruct P2 as [P2|P2]; [rewrite (read_no_flag _ P2)|rewrite P2]; reflexivity).
      rewrite ST. reflexivity. }
  rewrite F, I2, <- !app_assoc. reflexivity.
Qed.
