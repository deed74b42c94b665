(** C71: BinningProcess as an object: options, call histories, the three ways to fit, updates. *)
From Coq Require Import List ZArith Bool QArith String Ascii Lia Sorted.
From Verif Require Import Model.Arr Model.Core Model.Process Model.ProcLife Spec.ProcessSpec Spec.ProcLifeSpec Proofs.ProcessP Proofs.ProcessFinal
  Proofs.ProcLifeP Proofs.ProcLifeQ Proofs.ProcLifeR Proofs.ProcLifeS Proofs.ProcLifeT Props.ProcessProps.
Import ListNotations.
Open Scope Z_scope.

(** After a successful fit(X, y, sample_weight), whatever happened before: the binning object of every variable is of the class for the
    target type, has the process's parameters (with the entries of binning_fit_params[name] on top; max_bin_size aside) and is what its
    own fit gives on its column. *)
Theorem C71_each_variable {C Y W V T} (w : world C Y W V T) argsort o s X y sw s' :
  NoDup (po_names o) -> p_fit w argsort o s X y sw = (s', Ok tt) ->
  forall i n, nth_error (po_names o) i = Some n -> exists x b v,
    x_column X i n = Ok x /\ p_get o s' n = Ok b /\ class_of_target (w_target w y) (b_class b) /\
    options_handed_over o n (w_object w x || zmem n (po_cat o)) (b_opts b) /\
    b_res b = Some v /\ w_fit w (b_class b) (b_opts b) x y sw = Ok v.
Proof.
  intros ND H i n Hn. destruct (each_variable w argsort o s X y sw s' ND H i n Hn) as (x & b & v & st & A & B & D & E & F & G & _).
  exists x, b, v. auto 6.
Qed.
Print Assumptions C71_each_variable.

(** max_bin_size never reaches the variables: processes that differ in it only do the same on all data, and every object has
    max_bin_size = None unless binning_fit_params sets it. *)
Theorem C71_max_bin_size_ignored_refuted {C Y W V T} (w : world C Y W V T) argsort o s :
  (forall m X y sw, params_ok (with_max_size o m) = params_ok o -> p_fit w argsort (with_max_size o m) s X y sw = p_fit w argsort o s X y sw) /\
  (forall X y sw s', NoDup (po_names o) -> p_fit w argsort o s X y sw = (s', Ok tt) ->
     forall n b, In n (po_names o) -> p_get o s' n = Ok b -> fit_params_of o n = [] -> po_max_size o <> None ->
     v_max_size (b_opts b) = None /\ ~ max_size_handed_over o n (b_opts b)).
Proof.
  split.
  - intros m X y sw H.
    assert (FV : forall k n x, fit_variable w (with_max_size o m) k n x y sw = fit_variable w o k n x y sw) by reflexivity.
    assert (FL : forall k cols d v, fit_loop w (with_max_size o m) k y sw cols d v = fit_loop w o k y sw cols d v).
    { intros k. induction cols as [|[n c] cols IH]; intros d v; cbn [fit_loop]; [reflexivity|].
      destruct c as [x|e]; cbn [rbind]; [rewrite FV; destruct (fit_variable w o k n x y sw) as [[t b]|e]; [apply IH|reflexivity]|reflexivity]. }
    unfold p_fit, check_params. rewrite H. destruct (params_ok o); [|reflexivity].
    destruct (tkind_eqb _ _); [reflexivity|]. destruct (match sw with Some _ => _ | None => _ end); [reflexivity|].
    change (crit_check w (with_max_size o m) (w_target w y)) with (crit_check w o (w_target w y)). destruct (crit_check w o _); [|reflexivity].
    change (po_names (with_max_size o m)) with (po_names o). destruct (_ =? _)%nat; [|reflexivity].
    unfold fit_vars. rewrite FL. destruct (fit_loop w o (w_target w y) y sw _ _ _) as [[d v] r]. reflexivity.
  - intros X y sw s' ND H n b I G F M. destruct (In_nth_error _ _ I) as [i Hi].
    destruct (each_variable w argsort o s X y sw s' ND H i n Hi) as (x & b' & v & st & _ & B & _ & _ & _ & _ & Q & _).
    rewrite G in B. injection B as <-. rewrite F in Q. cbn in Q. split; [exact Q|]. unfold max_size_handed_over. rewrite F. cbn. congruence.
Qed.
Print Assumptions C71_max_bin_size_ignored_refuted.

(** With selection_criteria, after a successful fit on any history: get_support() keeps only variables that meet the bounds of every
    metric (the statistics being those of the fitted objects) or that are fixed, keeps all fixed ones, and respects "top". *)
Definition metric_value {C Y W V T} (w : world C Y W V T) (k : tkind) (o : popts) (s : pst V) (n : name) (m : nat) (x : Z) : Prop :=
  exists b v st, p_get o s n = Ok b /\ b_res b = Some v /\ w_stats w k (b_class b) v = Ok st /\ st m = x.
Theorem C71_selection {C Y W V T} (w : world C Y W V T) argsort o h os X y sw s' cs :
  argsort_ok argsort -> NoDup (po_names o) -> Forall (admissible (po_names o)) h ->
  fst (run w argsort (o, p_new) h) = os -> p_fit w argsort (fst os) (snd os) X y sw = (s', Ok tt) -> po_crit (fst os) = Some cs ->
  exists sup, p_support (fst os) s' false false = Ok (SMask sup) /\
    (forall n, selected (po_names o) sup n -> In n (po_fixed (fst os)) \/
       forall m c, In (m, c) cs -> exists x, metric_value w (w_target w y) (fst os) s' n m x /\ meets c x) /\
    (forall n, In n (po_fixed (fst os)) -> selected (po_names o) sup n) /\
    (forall m c hi t l, In (m, c) cs -> ranked c hi t -> top_ok t -> NoDup l ->
       (forall n, In n l -> selected (po_names o) sup n /\ ~ In n (po_fixed (fst os))) -> at_most_top t (List.length (po_names o)) (List.length l)) /\
    (forall u, In u (po_names o) -> ~ selected (po_names o) sup u ->
       (forall m c, In (m, c) cs -> exists x, metric_value w (w_target w y) (fst os) s' u m x /\ meets c x) ->
       exists m c hi t, In (m, c) cs /\ ranked c hi t /\
         forall v a b, selected (po_names o) sup v -> ~ In v (po_fixed (fst os)) ->
           metric_value w (w_target w y) (fst os) s' v m a -> metric_value w (w_target w y) (fst os) s' u m b -> at_least_as_good hi a b).
Proof.
  intros AS ND Hh R H EC. destruct os as [o1 s1]. cbn [fst snd] in *.
  pose proof (good_run w argsort (po_names o) h ND o p_new eq_refl (good_new _) Hh) as [G E]. rewrite R in G, E. cbn [fst snd] in G, E.
  assert (ND1 : NoDup (po_names o1)) by (now rewrite E). rewrite <- E in G. rewrite <- E. clear R Hh E ND.
  destruct (po_names o1) as [|n0 nr] eqn:EN.
  { (* no variables *)
    destruct (fit_selects w argsort o1 s1 X y sw s' (mkB CBin (mkV None false 0 0 None None None None None true [] None 0) None) ltac:(now rewrite EN) ltac:(now rewrite EN) H)
      as (sup & S1 & S2 & _ & S3). rewrite EN in S2. destruct sup; [|discriminate S2].
    assert (Fs : s_fitted s' = true). { destruct (fit_ok _ _ _ _ _ _ _ _ H) as (_ & _ & _ & _ & _ & d & v & _ & F). destruct (finish_ok _ _ _ _ _ F) as (? & ? & ? & _ & _ & _ & ->). reflexivity. }
    exists []. unfold p_support. rewrite Fs, S1. cbn. split; [reflexivity|].
    assert (NS : forall n, ~ selected [] [] n) by (intros n (i & Q & _); destruct i; discriminate).
    split; [intros n Q; destruct (NS n Q)|]. split.
    - intros n Q. rewrite EC in S3. cbn in S3. rewrite EN in S3. unfold select_support in S3. cbn in S3.
      rewrite (fix_vars_err [] (po_fixed o1) _ n Q) in S3; [discriminate|intros []].
    - split; [|intros u []]. intros m c hi t l _ _ Tt Nl Q. destruct l as [|a l]; [cbn; destruct t as [m0|a0 b0]; cbn in *; lia|].
      destruct (Q a (or_introl eq_refl)) as [Q1 _]. destruct (NS a Q1). }
  rewrite <- EN in *.
  assert (I0 : In n0 (po_names o1)) by (rewrite EN; now left). destruct (In_nth_error _ _ I0) as [i0 Hi0].
  pose proof (each_variable w argsort o1 s1 X y sw s' ND1 H) as EV.
  destruct (EV i0 n0 Hi0) as (_ & bd & _). 
  assert (dflt : bobj V) by exact bd. clear bd.
  destruct (fit_selects w argsort o1 s1 X y sw s' dflt ND1 G H) as (sup & S1 & S2 & S3 & S4). rewrite EC in S4.
  assert (Fs : s_fitted s' = true). { destruct (fit_ok _ _ _ _ _ _ _ _ H) as (_ & _ & _ & _ & _ & d & v & _ & F). destruct (finish_ok _ _ _ _ _ F) as (? & ? & ? & _ & _ & _ & ->). reflexivity. }
  assert (TOT : forall n, In n (po_names o1) -> exists v, dget (s_vars s') n = Some v).
  { intros n I. destruct (In_nth_error _ _ I) as [i Hi]. destruct (EV i n Hi) as (x & b & v & st & _ & _ & _ & _ & _ & _ & _ & _ & _ & Q). eauto. }
  assert (MV : forall n m x, In n (po_names o1) -> (value_of (obj_stat w (w_target w y)) (s_vars s') n m x <-> metric_value w (w_target w y) o1 s' n m x)).
  { intros n m x I. destruct (In_nth_error _ _ I) as [i Hi]. destruct (EV i n Hi) as (x0 & b & v & st & _ & Q1 & _ & Q2 & _ & _ & _ & Q3 & _ & Q4).
    unfold value_of, metric_value. split.
    - intros (b' & R1 & R2). rewrite Q4 in R1. injection R1 as <-. unfold obj_stat in R2. rewrite Q2, Q3 in R2. exists b, v, st. auto.
    - intros (b' & v' & st' & R1 & R2 & R3 & R4). rewrite Q1 in R1. injection R1 as <-. exists b. split; [exact Q4|]. unfold obj_stat.
      rewrite R2, R3. exact R4. }
  assert (SI : forall n, selected (po_names o1) sup n -> In n (po_names o1)) by (intros n (i & Q & _); eapply nth_error_In; exact Q).
  exists sup. unfold p_support. rewrite Fs, S1. cbn [negb andb]. split; [reflexivity|]. split; [|split; [|split]].
  - intros n Hn. destruct (C41_selected_meet_bounds argsort _ _ dflt _ _ _ _ AS ND1 TOT S4 n Hn) as [Q|Q]; [now left|]. right.
    intros m c Hc. destruct (Q m c Hc) as (x & Q1 & Q2). exists x. split; [apply MV; auto|exact Q2].
  - intros n Hn. exact (C41_fixed_always_selected argsort _ _ dflt _ _ _ _ AS ND1 TOT S4 n Hn).
  - intros. eapply (C41_at_most_top argsort _ _ dflt _ _ _ _ AS ND1 TOT S4); eassumption.
  - intros u Hu Nu Mu. destruct (C41_best_ranked argsort _ _ dflt _ _ _ _ AS ND1 TOT S4 u Hu Nu) as (m & c & hi & t & B1 & B2 & B3).
    + intros m c Hc. destruct (Mu m c Hc) as (x & Q1 & Q2). exists x. split; [now apply MV|exact Q2].
    + exists m, c, hi, t. split; [exact B1|]. split; [exact B2|]. intros v a b Hv Nv Ha Hb. apply (B3 v a b Hv Nv); apply MV; auto.
Qed.
Print Assumptions C71_selection.

(** A fit (any of the three) on an object with any call history raises the same exception as on a new object with the same parameters,
    or succeeds like it; if no update_binned_variable is pending, every further call then gets the same answer. *)
Theorem C71_fit_forgets_history {C Y W V T} (w : world C Y W V T) argsort o h os as_ c :
  NoDup (po_names o) -> Forall (admissible (po_names o)) h -> run w argsort (o, p_new) h = (os, as_) -> is_fit c -> admissible (po_names o) c ->
  let after := step w argsort os c in let fresh := step w argsort (fst os, p_new) c in
  snd after = snd fresh /\
  (snd after = ADone (Ok tt) -> settled (combine h as_) -> forall h', snd (run w argsort (fst after) h') = snd (run w argsort (fst fresh) h')).
Proof.
  intros ND Hh R F Ad. destruct os as [o1 s1].
  pose proof (good_run w argsort (po_names o) h ND o p_new eq_refl (good_new _) Hh) as [G E].
  pose proof (settled_flag w argsort (o, p_new) h eq_refl) as SF. rewrite R in G, E, SF. cbn [fst snd] in *.
  rewrite <- E in ND, G, Ad. pose proof (fit_fresh w argsort o1 s1 c ND G F Ad) as [A B]. cbn zeta in *.
  split; [exact A|]. intros Ok_ S h'. destruct (B Ok_ (SF S)) as (B1 & B2 & B3).
  destruct (step w argsort (o1, s1) c) as [[o2 s2] a2], (step w argsort (o1, p_new) c) as [[o3 s3] a3]. cbn [fst snd] in *. subst o2 o3.
  now apply run_same.
Qed.
Print Assumptions C71_fit_forgets_history.

(** The methods raise NotFittedError until a fit succeeded; after that the reading calls never do. *)
Theorem C71_not_fitted {C Y W V T} (w : world C Y W V T) argsort o h os as_ : run w argsort (o, p_new) h = (os, as_) ->
  (~ some_fit_succeeded (combine h as_) -> forall c, needs_fit c -> raises (snd (step w argsort os c)) NotFitted) /\
  (some_fit_succeeded (combine h as_) -> forall c, match c with KUpdate _ _ | KInformation | KGet _ | KSupport _ _ => True | _ => False end ->
     ~ raises (snd (step w argsort os c)) NotFitted).
Proof.
  intros R. destruct os as [o1 s1]. pose proof (run_fitted w argsort h o p_new) as F. rewrite R in F. cbn [fst snd] in F. split.
  - intros N c. apply not_fitted_raises. destruct (s_fitted s1); [|reflexivity]. destruct (proj1 F eq_refl) as [Q|Q]; [discriminate|destruct (N Q)].
  - intros S c. apply fitted_reads. apply F. now right.
Qed.
Print Assumptions C71_not_fitted.

(** fit_disk on a file is fit on the data frame of its columns. *)
Theorem C71_fit_disk_is_fit {C Y W V T} (w : world C Y W V T) argsort o s stem ext file target c frame :
  dotless stem -> ext = "csv"%string \/ ext = "parquet"%string -> dget file target = Some c ->
  (forall n, In n (po_names o) -> exists x, dget file n = Some x /\ dget frame n = Some x) ->
  List.length frame = List.length (po_names o) -> (forall n, In n (po_fixed o) -> In n (po_names o)) ->
  let y := w_as_target w c in
  p_fit_disk w argsort o s (stem ++ String "."%char ext) file target = p_fit w argsort o s (XFrame (w_len w y) frame) y None.
Proof.
  intros D E Ht Hc Hl Hf y. apply disk_is_fit; auto. unfold path_check. rewrite split_app by exact D.
  destruct E as [-> | ->]; reflexivity.
Qed.
Print Assumptions C71_fit_disk_is_fit.
(** A file name with another dot in it is rejected, although its extension is csv. *)
Theorem C71_dotted_path_refuted {C Y W V T} (w : world C Y W V T) argsort o s a b rest file target :
  dotless a -> dotless b -> b <> "csv"%string -> b <> "parquet"%string -> params_ok o = true ->
  p_fit_disk w argsort o s (a ++ String "."%char (b ++ String "."%char rest)) file target = (s, Err ValueError).
Proof.
  intros A B N1 N2 P. unfold p_fit_disk, check_params. rewrite P. unfold path_check. rewrite split_app by exact A. rewrite split_app by exact B. cbn [nth_error].
  apply String.eqb_neq in N1, N2. now rewrite N1, N2.
Qed.
Print Assumptions C71_dotted_path_refuted.
Example C71_dotted_path_example : exists a b rest, dotless a /\ dotless b /\ b <> "csv"%string /\ b <> "parquet"%string /\
  (a ++ String "."%char (b ++ String "."%char rest))%string = "./data.csv"%string.
Proof. exists ""%string, "/data"%string, "csv"%string. cbn. repeat split; discriminate. Qed.

(** fit_from_dict with the binning objects of a fitted process gives the same objects, support, summary and transform. *)
Theorem C71_fit_from_dict_is_fit {C Y W V T} (w : world C Y W V T) argsort o X y sw s1 l :
  NoDup (po_names o) -> po_names o <> [] -> p_fit w argsort o p_new X y sw = (s1, Ok tt) ->
  NoDup (map fst l) -> (forall n, In n (map fst l) <-> In n (po_names o)) -> (forall n b, In (n, b) l -> p_get o s1 n = Ok b) ->
  (forall n p, In n (po_names o) -> In p (fit_params_of o n) -> e_name p = None) ->
  exists s2, p_fit_dict w argsort o p_new l = (s2, Ok tt) /\
    (forall n, p_get o s2 n = p_get o s1 n) /\ (forall i n, p_support o s2 i n = p_support o s1 i n) /\
    snd (p_summary w argsort o s2) = snd (p_summary w argsort o s1) /\ (forall X', p_transform w o s2 X' = p_transform w o s1 X').
Proof.
  intros ND NE H Nl Kl Gl Nm. destruct (dict_is_fit w argsort o X y sw s1 l ND NE H Nl Kl Gl Nm) as (s2 & D & F2 & ET & EN & ES & EP & EU & F1 & EV).
  exists s2. split; [exact D|].
  assert (U1 : s_updated s1 = false). { pose proof (p_fit_updated w argsort o p_new X y sw) as Q. rewrite H in Q. exact Q. }
  split; [intros n; unfold p_get; now rewrite F1, F2, EV|]. split; [intros i n; unfold p_support; now rewrite F1, F2, EP|]. split.
  - unfold p_summary. rewrite EU, U1, F1, F2. cbn. unfold summary_rows. now rewrite EP, ET, ES.
  - intros X'. unfold p_transform. rewrite F1, F2, EP. destruct (negb true); [reflexivity|]. destruct (s_support s1) as [m|]; [|reflexivity].
    destruct (negb (existsb _ m)); [reflexivity|].
    assert (TA : forall l', transform_all w o s2 X' l' = transform_all w o s1 X' l').
    { induction l' as [|i l' IH]; cbn [transform_all]; [reflexivity|]. rewrite IH. unfold transform_one. destruct (nth_error (po_names o) i) as [n|]; [|reflexivity]. now rewrite EV. }
    destruct X'; now rewrite TA.
Qed.
Print Assumptions C71_fit_from_dict_is_fit.

(** After a successful fit the three forms of get_support agree: a mask with one entry per variable, the increasing positions of its
    True entries, and the names at these positions; and transform returns exactly those variables, each transformed by its own object. *)
Theorem C71_support_and_transform {C Y W V T} (w : world C Y W V T) argsort o h os X y sw s' :
  NoDup (po_names o) -> Forall (admissible (po_names o)) h -> fst (run w argsort (o, p_new) h) = os ->
  p_fit w argsort (fst os) (snd os) X y sw = (s', Ok tt) -> po_names o <> [] ->
  exists mask idx ns, p_support (fst os) s' false false = Ok (SMask mask) /\ p_support (fst os) s' true false = Ok (SIndices idx) /\
    p_support (fst os) s' false true = Ok (SNames ns) /\ p_support (fst os) s' true true = Err ValueError /\
    List.length mask = List.length (po_names o) /\ StronglySorted lt idx /\ (forall i, In i idx <-> nth_error mask i = Some true) /\
    Forall2 (fun i n => nth_error (po_names o) i = Some n) idx ns /\
    forall X' out, p_transform w (fst os) s' X' = Ok out ->
      map fst out = ns /\
      Forall2 (fun i nt => exists b v x, p_get (fst os) s' (fst nt) = Ok b /\ b_res b = Some v /\ x_column X' i (fst nt) = Ok x /\
        w_apply w (b_class b) (b_opts b) v x = Ok (snd nt)) idx out.
Proof.
  intros ND Hh R H NE. destruct os as [o1 s1]. cbn [fst snd] in *.
  pose proof (good_run w argsort (po_names o) h ND o p_new eq_refl (good_new _) Hh) as [G E]. rewrite R in G, E. cbn [fst snd] in G, E.
  assert (ND1 : NoDup (po_names o1)) by (now rewrite E). rewrite <- E in G, NE. rewrite <- E. clear R Hh E ND.
  destruct (po_names o1) as [|n0 nr] eqn:EN; [congruence|]. rewrite <- EN in *.
  assert (Hi0 : nth_error (po_names o1) 0 = Some n0) by (rewrite EN; reflexivity).
  destruct (each_variable w argsort o1 s1 X y sw s' ND1 H 0%nat n0 Hi0) as (_ & dflt & _).
  destruct (fit_selects w argsort o1 s1 X y sw s' dflt ND1 G H) as (sup & S1 & S2 & S3 & S4).
  assert (Fs : s_fitted s' = true). { destruct (fit_ok _ _ _ _ _ _ _ _ H) as (_ & _ & _ & _ & _ & d & v & _ & F). destruct (finish_ok _ _ _ _ _ F) as (? & ? & ? & _ & _ & _ & ->). reflexivity. }
  exists sup, (where_true sup), (mask_names (po_names o1) sup). unfold p_support. rewrite Fs, S1, S2, Nat.eqb_refl. cbn [negb andb].
  do 5 (split; [reflexivity|]). split; [apply sorted_filter_seq|]. split; [intros i; apply where_true_spec|].
  pose proof (mask_names_spec (po_names o1) sup S2) as MN. split; [exact MN|].
  intros X' out T_. unfold p_transform in T_. rewrite Fs, S1 in T_. cbn [negb] in T_.
  assert (A : transform_all w o1 s' X' (where_true sup) = Ok out).
  { destruct (existsb (fun b => b) sup) eqn:EX; cbn [negb] in T_; [|rewrite (where_none _ EX); exact T_].
    destruct X' as [r l|r l]; [destruct (_ =? _)%nat; [exact T_|discriminate]|]. destruct (negb _); [discriminate|]. destruct (forallb _ _); [exact T_|discriminate]. }
  apply transform_all_spec in A; [|exact Fs]. split.
  - clear -A MN. revert MN A. generalize (mask_names (po_names o1) sup). generalize (where_true sup). intros idx ns MN. revert out.
    induction MN as [|i n idx ns M1 M2 IH]; intros out A; inversion A as [|? ? ? ? [A1 _] A2]; subst; cbn [map]; [reflexivity|].
    f_equal; [congruence|now apply IH].
  - clear -A. induction A as [|i nt l l' [_ A1] A2 IH]; constructor; auto.
Qed.
Print Assumptions C71_support_and_transform.

(** update_binned_variable: a rejected call changes nothing; an accepted one replaces exactly that object, which has the class for the
    target type and a matching name (or none, as the replaced one). *)
Theorem C71_update {V} o (s s' : pst V) n b r : p_update o s n b = (s', r) ->
  (r <> Ok tt -> s' = s) /\
  (r = Ok tt -> p_get o s' n = Ok b /\ (forall m, m <> n -> p_get o s' m = p_get o s m) /\ In n (po_names o) /\
     (s_target s = Some TBinary -> b_class b = CBin \/ b_class b = CPW) /\ (s_target s = Some TContinuous -> b_class b = CCont \/ b_class b = CContPW) /\
     (s_target s = Some TMulticlass -> b_class b = CMulti) /\ (v_name (b_opts b) = Some n \/ v_name (b_opts b) = None) /\
     (forall old, p_get o s n = Ok old -> v_name (b_opts old) = None \/ v_name (b_opts b) = v_name (b_opts old))).
Proof.
  unfold p_update, p_get. intros H. destruct (s_fitted s) eqn:F; cbn [negb] in H; [|injection H as <- <-; split; [reflexivity|discriminate]].
  destruct (zmem n (po_names o)) eqn:Z; cbn [negb] in H; [|injection H as <- <-; split; [reflexivity|discriminate]].
  destruct (accepts (s_target s) (b_class b)) eqn:A; cbn [negb] in H; [|injection H as <- <-; split; [reflexivity|discriminate]].
  destruct (dget (s_vars s) n) as [old|] eqn:D; [|injection H as <- <-; split; [reflexivity|discriminate]].
  destruct (match v_name (b_opts old) with Some _ => _ | None => _ end) eqn:N1; [injection H as <- <-; split; [reflexivity|discriminate]|].
  destruct (match v_name (b_opts b) with Some _ => _ | None => _ end) eqn:N2; [injection H as <- <-; split; [reflexivity|discriminate]|].
  injection H as <- <-. split; [congruence|]. intros _. cbn. rewrite ?F, ?Z, dget_dset, Z.eqb_refl. split; [reflexivity|]. split.
  - intros m Hm. rewrite dget_dset. destruct (Z.eqb_spec n m); [congruence|reflexivity].
  - split; [now apply zmem_In|]. do 3 (split; [intros Q; rewrite Q in A; destruct (b_class b); (now auto) || discriminate A|]). split.
    + destruct (v_name (b_opts b)) as [m|]; [left|now right]. apply negb_false_iff, Z.eqb_eq in N2. now subst.
    + intros old' Q. injection Q as <-. destruct (v_name (b_opts old)) as [m|]; [right|now left]. cbn in N1. destruct (v_name (b_opts b)) as [m'|]; [|discriminate].
      apply negb_false_iff, Z.eqb_eq in N1. now subst.
Qed.
Print Assumptions C71_update.

(** Parameters out of their documented ranges: every fit raises ValueError and changes nothing; a fit that succeeds had them in range. *)
Theorem C71_parameter_ranges {C Y W V T} (w : world C Y W V T) argsort o s c : is_fit c ->
  (~ in_range o -> step w argsort (o, s) c = ((o, s), ADone (Err ValueError))) /\
  (snd (step w argsort (o, s) c) = ADone (Ok tt) -> in_range o).
Proof.
  intros F. split; [|intros H; apply params_range; eapply fit_params_in; eassumption].
  intros P. rewrite <- params_range in P. apply not_true_iff_false in P.
  destruct c; try destruct F; cbn [step]; unfold p_fit, p_fit_disk, p_fit_dict, check_params; rewrite P; reflexivity.
Qed.
Print Assumptions C71_parameter_ranges.

(** summary() after a successful fit on any history without pending update, and after an accepted update: one row per variable, in order,
    with the statistics of its current binning object and the selection get_support() reports. *)
Theorem C71_summary {C Y W V T} (w : world C Y W V T) argsort o h os as_ :
  NoDup (po_names o) -> po_names o <> [] -> Forall (admissible (po_names o)) h -> run w argsort (o, p_new) h = (os, as_) ->
  (forall X y sw s', settled (combine h as_) -> p_fit w argsort (fst os) (snd os) X y sw = (s', Ok tt) ->
     exists rows, p_summary w argsort (fst os) s' = (s', Ok rows) /\ reports w (fst os) s' (w_target w y) rows) /\
  (forall n b s1 s2 rows, p_update (fst os) (snd os) n b = (s1, Ok tt) -> p_summary w argsort (fst os) s1 = (s2, Ok rows) ->
     exists k, s_target (snd os) = Some k /\ reports w (fst os) s2 k rows /\ forall m, p_get (fst os) s2 m = p_get (fst os) s1 m).
Proof.
  intros ND NE Hh R. destruct os as [o1 s1]. cbn [fst snd].
  pose proof (good_run w argsort (po_names o) h ND o p_new eq_refl (good_new _) Hh) as [G E].
  pose proof (settled_flag w argsort (o, p_new) h eq_refl) as SF. rewrite R in G, E, SF. cbn [fst snd] in *.
  assert (ND1 : NoDup (po_names o1)) by (now rewrite E). assert (NE1 : po_names o1 <> []) by (now rewrite E). rewrite <- E in G. split.
  - intros X y sw s' S H. eapply fit_summary; eauto.
  - intros n b s2 s3 rows H Q. unfold p_update in H. destruct (negb (s_fitted s1)); [discriminate|]. destruct (zmem n (po_names o1)) eqn:Z; cbn [negb] in H; [|discriminate].
    destruct (negb (accepts _ _)); [discriminate|]. destruct (dget (s_vars s1) n); [|discriminate].
    destruct (match v_name (b_opts _) with Some _ => _ | None => _ end); [discriminate|].
    destruct (match v_name (b_opts b) with Some _ => _ | None => _ end); [discriminate|]. injection H as <-.
    assert (G2 : good (po_names o1) (with_updated true (with_vars (s_dtypes s1) (dset (s_vars s1) n b) s1))).
    { apply good_updated. destruct (good_keyed _ _ G) as [K1 K2]. apply good_vars; [exact K1| |exact G]. apply keyed_dset; [now apply zmem_In|exact K2]. }
    destruct (updated_summary w argsort o1 _ s3 rows ND1 G2 eq_refl Q) as (k & A & B & D). exists k. auto.
Qed.
Print Assumptions C71_summary.

(** information() after a successful fit: records, variables, numerical and categorical variables (as found in the data or listed in
    categorical_variables), and selected ones. *)
Theorem C71_information {C Y W V T} (w : world C Y W V T) argsort o h os X y sw s' :
  NoDup (po_names o) -> Forall (admissible (po_names o)) h -> fst (run w argsort (o, p_new) h) = os ->
  p_fit w argsort (fst os) (snd os) X y sw = (s', Ok tt) ->
  exists cats mask, List.length cats = List.length (po_names o) /\
    (forall i n, nth_error (po_names o) i = Some n -> exists x, x_column X i n = Ok x /\ nth_error cats i = Some (w_object w x || zmem n (po_cat (fst os)))) /\
    p_support (fst os) s' false false = Ok (SMask mask) /\
    p_information s' = Ok (x_rows X, List.length (po_names o), List.length (filter negb cats), Z.of_nat (List.length (filter (fun b => b) cats)), List.length (filter (fun b => b) mask)).
Proof.
  intros ND Hh R H. destruct os as [o1 s1]. cbn [fst snd] in *.
  pose proof (good_run w argsort (po_names o) h ND o p_new eq_refl (good_new _) Hh) as [G E]. rewrite R in G, E. cbn [fst snd] in G, E.
  assert (ND1 : NoDup (po_names o1)) by (now rewrite E). rewrite <- E in G. rewrite <- E. clear R Hh E ND.
  destruct (fit_selects w argsort o1 s1 X y sw s' (mkB CBin (mkV None false 0 0 None None None None None true [] None 0) None) ND1 G H) as (sup & S1 & S2 & _ & _).
  pose proof (fit_dtypes w argsort o1 s1 X y sw s' ND1 H) as FD.
  set (f := fun n => match dget (s_dtypes s') n with Some b => b | None => false end).
  assert (GS : good (po_names o1) s').
  { pose proof (good_step w argsort o1 s1 (KFit X y sw) ND1 G I) as [Q _]. cbn [step] in Q. rewrite H in Q. exact Q. }
  assert (Fs : s_fitted s' = true /\ s_samples s' = x_rows X /\ s_nvars s' = List.length (po_names o1)).
  { destruct (fit_ok _ _ _ _ _ _ _ _ H) as (_ & _ & _ & _ & WD & d & v & _ & F). destruct (finish_ok _ _ _ _ _ F) as (? & ? & ? & _ & _ & _ & ->). cbn. auto. }
  destruct Fs as (F1 & F2 & F3).
  exists (map f (po_names o1)), sup. split; [apply map_length|]. split; [|split].
  - intros i n Hn. destruct (FD i n Hn) as (x & A & B). exists x. split; [exact A|]. rewrite (map_nth_error f i (po_names o1) Hn). unfold f. now rewrite B.
  - unfold p_support. rewrite F1, S1. reflexivity.
  - assert (EC : List.length (filter (fun kv => negb (snd kv)) (s_dtypes s')) = List.length (filter negb (map f (po_names o1)))).
    { rewrite (dict_count (s_dtypes s') (po_names o1) f (g_dtypes _ _ GS) ND1 (g_dk _ _ GS)).
      - clear. induction (po_names o1) as [|n l IH]; cbn [map filter]; [reflexivity|]. destruct (f n); cbn [negb List.length]; auto.
      - intros n In_. destruct (In_nth_error _ _ In_) as [i Hi]. destruct (FD i n Hi) as (x & _ & B). unfold f. now rewrite B. }
    assert (SUM : forall l : list bool, (List.length (filter negb l) + List.length (filter (fun b => b) l) = List.length l)%nat).
    { clear. induction l as [|[] l IH]; cbn [filter negb List.length]; lia. }
    unfold p_information. rewrite F1, F2, F3, S1, EC. cbn [negb]. pose proof (SUM (map f (po_names o1))) as Q. rewrite map_length in Q.
    assert (Q2 : Z.of_nat (List.length (po_names o1)) - Z.of_nat (List.length (filter negb (map f (po_names o1)))) = Z.of_nat (List.length (filter (fun b => b) (map f (po_names o1))))) by (rewrite <- Q; clear; lia).
    now rewrite Q2.
Qed.
Print Assumptions C71_information.

(** A successful fit_from_dict: the keys are the variables, the objects are fitted, all of the class of one target type, not piecewise, named
    as their key (or unnamed), and they are the objects of the process. *)
Theorem C71_fit_from_dict_requires {C Y W V T} (w : world C Y W V T) argsort o s l s' :
  NoDup (map fst l) -> p_fit_dict w argsort o s l = (s', Ok tt) ->
  (forall n, In n (map fst l) <-> In n (po_names o)) /\
  exists k, forall n b, In (n, b) l ->
    class_of_target k (b_class b) /\ b_res b <> None /\ (v_name (b_opts b) = Some n \/ v_name (b_opts b) = None) /\ p_get o s' n = Ok b.
Proof. intros N H. destruct (dict_requires w argsort o s l s' N H) as (A & k & _ & B). split; [exact A|]. exists k. exact B. Qed.
Print Assumptions C71_fit_from_dict_requires.

(** ** concrete processes: a column is a number (13: its fit raises), the fitted object the number plus max_n_prebins *)
Definition xw : world Z (tkind * Z) unit Z Z :=
  mkW _ _ _ _ _ fst snd (fun c => (TBinary, c)) (fun c => c <? 0) (fun _ _ => Ok tt)
    (fun _ v x _ _ => if x =? 13 then Err ValueError else Ok (x + v_prebins v))
    (fun _ _ v => Ok (fun _ => v)) (fun _ _ v x => Ok (v * 100 + x)).
Definition xo (crit_ : option (list (nat * crit))) : popts :=
  mkPO [1; 2] 20 (1 # 20) None None None (Some (1 # 4)) None true crit_ [] [] [] None [(2, [FPrebins 5])].
Definition xo0 := xo None.
Definition ybin : tkind * Z := (TBinary, 10).
Definition xobj (n v : Z) : bobj Z := mkB CBin (mkV (Some n) false 20 (1 # 20) None None None None None true [] None 0) (Some v).
Definition xX : xdata Z := XArray 10 [5; 6].

Definition xh : list (call Z (tkind * Z) unit Z) :=
  [KFit xX ybin None; KUpdate 1 (xobj 1 3); KSummary; KSetParams (xo (Some [(0%nat, mkC (Some 20) None None None)]))].
Example C71_hyps_met : NoDup (po_names xo0) /\ in_range xo0 /\
  (exists s, p_fit xw sort_pos xo0 p_new xX ybin None = (s, Ok tt) /\ p_get xo0 s 1 = Ok (mkB CBin (mkV (Some 1) false 20 (1 # 20) None None None None None true [] None 0) (Some 25)) /\
     (exists b, p_get xo0 s 2 = Ok b /\ b_res b = Some 11) /\ p_support xo0 s false true = Ok (SNames [1; 2]) /\
     p_transform xw xo0 s xX = Ok [(1, 2505); (2, 1106)]) /\
  Forall (@admissible Z (tkind * Z) unit Z (po_names xo0)) xh /\
  (exists os as_, run xw sort_pos (xo0, p_new) xh = (os, as_) /\
     settled (combine xh as_) /\
     snd (step xw sort_pos os (KFit xX ybin None)) = ADone (Ok tt) /\
     p_support (fst os) (snd (fst (step xw sort_pos os (KFit xX ybin None)))) false false = Ok (SMask [true; false])).
Proof.
  split; [repeat constructor; cbn; lia|]. split; [apply params_range; vm_compute; reflexivity|]. split.
  { eexists. split; [vm_compute; reflexivity|]. split; [vm_compute; reflexivity|]. split; [eexists; vm_compute; split; reflexivity|]. vm_compute. auto. }
  split; [repeat constructor|]. eexists. eexists. split; [vm_compute; reflexivity|]. split.
  { intros l1 n b l2 E. unfold xh in E. cbn [combine] in E. destruct l1 as [|a1 l1]; [discriminate|]. injection E as _ E. destruct l1 as [|a2 l1].
    - injection E as _ _ E. rewrite <- E. eexists. left. reflexivity.
    - injection E as _ E. destruct l1 as [|a3 l1]; [discriminate|]. injection E as _ E. destruct l1 as [|a4 l1]; [discriminate|]. injection E as _ E.
      destruct l1; discriminate. }
  split; vm_compute; reflexivity.
Qed.

(** A refit that raises is not atomic: the variables before the failing one are replaced (transform uses the new object of variable 1 while
    summary() still reports the old one). *)
Theorem C71_failed_refit_mixes_refuted :
  let h := [KFit xX ybin None; KFit (XArray 10 [7; 13]) ybin None] in
  let before := fst (run xw sort_pos (xo0, p_new) (firstn 1 h)) in let after := fst (run xw sort_pos (xo0, p_new) h) in
  (exists a1, snd (run xw sort_pos (xo0, p_new) h) = [a1; ADone (Err ValueError)]) /\
  p_transform xw xo0 (snd before) xX = Ok [(1, 2505); (2, 1106)] /\ p_transform xw xo0 (snd after) xX = Ok [(1, 2705); (2, 1106)] /\
  s_stats (snd after) = s_stats (snd before).
Proof. cbn zeta. split; [eexists; vm_compute; reflexivity|]. split; [vm_compute; reflexivity|]. split; vm_compute; reflexivity. Qed.
Print Assumptions C71_failed_refit_mixes_refuted.
(** A refit with an unsupported target raises ValueError, and from then on summary() of the fitted process raises KeyError. *)
Theorem C71_failed_refit_breaks_summary_refuted :
  let h := [KFit xX ybin None; KSummary; KFit xX (TUnsupported, 10) None; KSummary] in
  exists rows, snd (run xw sort_pos (xo0, p_new) h) = [ADone (Ok tt); ASummary (Ok rows); ADone (Err ValueError); ASummary (Err OtherError)].
Proof. cbn zeta. eexists. vm_compute. reflexivity. Qed.
Print Assumptions C71_failed_refit_breaks_summary_refuted.
(** A refit with another number of columns raises ValueError and leaves the wrong number of variables behind: after the next update,
    summary() raises and get_support() has three entries for two variables. *)
Theorem C71_failed_refit_wrong_width_refuted :
  let h := [KFit xX ybin None; KFit (XArray 10 [5; 6; 7]) ybin None; KUpdate 1 (xobj 1 3); KSummary; KSupport false false] in
  snd (run xw sort_pos (xo0, p_new) h) =
  [ADone (Ok tt); ADone (Err ValueError); ADone (Ok tt); ASummary (Err ValueError); ASupport (Ok (SMask [true; true; true]))].
Proof. vm_compute. reflexivity. Qed.
Print Assumptions C71_failed_refit_wrong_width_refuted.
(** update_binned_variable accepts an object that is not fitted; summary() and transform of the fitted process then raise NotFittedError. *)
Theorem C71_unfitted_update_refuted :
  let h := [KFit xX ybin None; KUpdate 1 (mkB CBin (mkV (Some 1) false 20 (1 # 20) None None None None None true [] None 0) None); KTransform xX; KSummary] in
  snd (run xw sort_pos (xo0, p_new) h) = [ADone (Ok tt); ADone (Ok tt); AData (Err NotFitted); ASummary (Err NotFitted)].
Proof. vm_compute. reflexivity. Qed.
Print Assumptions C71_unfitted_update_refuted.
(** update_binned_variable accepts a fitted ContinuousOptimalPWBinning for a continuous target; summary() then raises AttributeError. *)
Theorem C71_continuous_piecewise_update_refuted :
  let h := [KFit xX (TContinuous, 10) None; KUpdate 1 (mkB CContPW (mkV (Some 1) false 20 (1 # 20) None None None None None true [] None 0) (Some 4)); KSummary] in
  snd (run xw sort_pos (xo0, p_new) h) = [ADone (Ok tt); ADone (Ok tt); ASummary (Err OtherError)].
Proof. vm_compute. reflexivity. Qed.
Print Assumptions C71_continuous_piecewise_update_refuted.
(** An update that is pending when fit() is called again stays pending: a later summary() selects anew (here with changed criteria), which it
    does not on a new object with the same calls. *)
Theorem C71_pending_update_refuted :
  let tail := [KFit xX ybin None; KSetParams (xo (Some [(0%nat, mkC (Some 20) None None None)])); KSummary; KSupport false false] in
  let old := snd (run xw sort_pos (xo0, p_new) (KFit xX ybin None :: KUpdate 1 (xobj 1 3) :: tail)) in
  let new := snd (run xw sort_pos (xo0, p_new) tail) in
  nth 5 old (ADone (Ok tt)) = ASupport (Ok (SMask [true; false])) /\ nth 3 new (ADone (Ok tt)) = ASupport (Ok (SMask [true; true])).
Proof. vm_compute. auto. Qed.
Print Assumptions C71_pending_update_refuted.
(** information() counts the types guessed from the columns: a variable made categorical by binning_fit_params is counted as numerical. *)
Theorem C71_information_dtype_refuted :
  let o := mkPO [1] 20 (1 # 20) None None None None None true None [] [] [] None [(1, [FCat true])] in
  exists s b, p_fit xw sort_pos o p_new (XArray 10 [5]) ybin None = (s, Ok tt) /\ p_get o s 1 = Ok b /\ v_cat (b_opts b) = true /\
    p_information s = Ok (10, 1%nat, 1%nat, 0, 1%nat).
Proof. cbn zeta. eexists. eexists. split; [vm_compute; reflexivity|]. split; [vm_compute; reflexivity|]. split; vm_compute; reflexivity. Qed.
Print Assumptions C71_information_dtype_refuted.
