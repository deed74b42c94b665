(** The outcome of one fit of a ContinuousOptimalBinning object, as a function of the parameters and the data only. *)
From Coq Require Import List ZArith QArith Bool Arith Lia.
From Verif Require Import Model.Arr Model.Core Model.CP Model.Cont Model.Lifecycle Model.ContLife
  Spec.CoreSpec Spec.CPSpec Spec.CPFitSpec Spec.ContSpec Spec.ContLifeSpec
  Proofs.ArrP Proofs.CoreP Proofs.FitP Proofs.CoreFinal Proofs.LifeP Proofs.LifeR.
Import ListNotations.
Open Scope Z_scope.

Definition puser := option (container * list Z).
Definition pfixed := option (bool * list bool).

(** What a fit does: [OutA] raises before the statistics of the missing records are written, [OutB] after that, [OutC] after
    the status and split points are written, [OutD] succeeds. *)
Inductive outc :=
| OutA (k : exn) (u : puser) (f : pfixed)
| OutB (k : exn) (n : nat) (u : puser) (f : pfixed)
| OutC (k : exn) (n : nat) (u : puser) (f : pfixed) (status : Z) (s : list Z) (rows : option (list trow))
| OutD (n : nat) (u : puser) (f : pfixed) (status : Z) (s : list Z) (rows : list trow) (mn mx : Z).

Definition mrow (old : stale) (d : cdata) : trow := missing_row (new_old old (missing_records d)) (missing_records d).

Definition apply (e : cenv) (d : cdata) (o : cobj) (x : outc) : cobj * res unit :=
  let old := new_old (co_old o) (missing_records d) in
  match x with
  | OutA k u f => (mkCO u f (co_nref o) (co_old o) (co_status o) (co_splits o) (co_rows o) (co_table o) (co_fitted o), Err k)
  | OutB k n u f => (mkCO u f (co_nref o + n) old (co_status o) (co_splits o) (co_rows o) (co_table o) (co_fitted o), Err k)
  | OutC k n u f status s rows =>
      (mkCO u f (co_nref o + n) old (Some status) (Some (NdArray, s))
            (match rows with Some r => Some (r ++ [mrow (co_old o) d]) | None => co_rows o end) (co_table o) (co_fitted o), Err k)
  | OutD n u f status s rows mn mx =>
      (mkCO u f (co_nref o + n) old (Some status) (Some (NdArray, s)) (Some (rows ++ [mrow (co_old o) d]))
            (Some (mkCT (ce_special e) (ce_special_c e) s NdArray (rows ++ [mrow (co_old o) d]) mn mx (cd_int d) PyList u false false))
            true, Ok tt)
  end.

Definition csolver (e : cenv) (fx : option (list bool)) (n : nat) (st : list cstat) : list bool :=
  match ce_solver e fx n st with Ok (_, s) => s | Err _ => repeat true (length st) end.
Lemma csolver_ok e fx n : c_answers_fit e -> c_solver_ok (csolver e fx n).
Proof.
  intros A st L. unfold csolver. destruct (ce_solver e fx n st) as [[a s]|k] eqn:E; [exact (A _ _ _ _ _ E)|].
  rewrite repeat_length. split; [reflexivity|]. destruct st as [|c st]; [cbn in L; lia|]. clear.
  cbn [length]. generalize (length st). intros m. induction m as [|m IH]; [reflexivity|]. cbn [repeat last] in *. exact IH.
Qed.

Lemma missing_row_new old d : mrow old d = missing_row old (missing_records d).
Proof. unfold mrow. destruct (missing_records d) as [|r l]; reflexivity. Qed.

(** [OutD] is a run of [fit_cont] *)
Definition linked (e : cenv) (d : cdata) (s : list Z) (rows : list trow) : Prop :=
  exists fx n f0 splits0, (c_prebin_sorted e -> nondecreasing splits0) /\
    forall old, exists f, fit_cont old (csolver e fx n) (ce_special e) f0 None splits0 (cd_recs d) = Some (Ok f) /\
      cf_splits f = s /\ cf_rows f = rows ++ [mrow old d].
Definition facts (e : cenv) (d : cdata) (x : outc) : Prop :=
  match x with
  | OutA _ _ _ | OutB _ _ _ _ => True
  | OutC _ _ _ _ _ _ _ => c_answers_fit e -> clean_data e d = []
  | OutD _ u _ _ s rows mn mx => linked e d s rows /\ clean_data e d <> [] /\ mn = zmin (map s_x (clean_data e d)) /\ mx = zmax (map s_x (clean_data e d))
  end.

(** ** pre-binning *)
Lemma cprebins_shape data fuel : forall u f s,
  (forall n, cprebins_st fuel data (mkCP u f n) s = None) \/
  exists k u' f' r, (forall n, cprebins_st fuel data (mkCP u f n) s = Some (mkCP u' f' (n + k), r)) /\
    (f = None -> u' = u /\ f' = None) /\
    match r with
    | Ok (s', st) => exists pb, (forall m, exists pb', compute_prebins_c fuel data (option_map snd f) None m s = Some (Ok pb') /\
                       cp_splits pb' = cp_splits pb /\ cp_stats pb' = cp_stats pb) /\ cp_splits pb = s' /\ cp_stats pb = st /\
                       length st = S (length s') /\ data <> []
    | Err _ => True
    end.
Proof.
  induction fuel as [|fuel IH]; intros u f s; [left; reflexivity|].
  destruct s as [|x s].
  - right. exists 0%nat, u, f, (Err ValueError). split; [|split; [|exact I]].
    + intros n. rewrite Nat.add_0_r. reflexivity.
    + intros ->. split; reflexivity.
  - cbn [cprebins_st compute_prebins_c]. cbv zeta. cbn [cps_fixed cps_user cps_nref].
    set (st := stats (x :: s) data). set (ms := mask_splits (map (fun c => c_n c =? 0) st)).
    destruct (any (map (fun c => c_n c =? 0) st)) eqn:EA.
    + destruct f as [[np f]|].
      * cbn [option_map snd]. destruct (any (mand f ms)) eqn:EM.
        { right. exists 1%nat, u, (Some (np, f)), (Err ValueError). split; [|split; [discriminate|exact I]].
          intros n. rewrite Nat.add_comm. reflexivity. }
        destruct (IH (option_map (fun cu => (NdArray, select (mnot ms) (snd cu))) u) (Some (true, select (mnot ms) f))
                     (select (mnot ms) (x :: s))) as [H|(k & u' & f' & r & H & _ & R)].
        { left. intros n. apply H. }
        right. exists (S k), u', f', r. split; [|split; [discriminate|]].
        { intros n. rewrite H. do 3 f_equal. lia. }
        destruct r as [[s' st']|]; [|exact I]. destruct R as (pb & R & E1 & E2). exists pb. split; [|split; assumption].
        intros m. destruct (R (S m)) as (pb' & R1 & R2 & R3). exists pb'. cbn [option_map snd] in R1. split; [exact R1|]. split; assumption.
      * cbn [option_map snd].
        destruct (IH u None (select (mnot ms) (x :: s))) as [H|(k & u' & f' & r & H & P & R)].
        { left. intros n. apply H. }
        right. exists (S k), u', f', r. split; [|split; [exact P|]].
        { intros n. rewrite H. do 3 f_equal. lia. }
        destruct r as [[s' st']|]; [|exact I]. destruct R as (pb & R & E1 & E2). exists pb. split; [|split; assumption].
        intros m. destruct (R (S m)) as (pb' & R1 & R2 & R3). exists pb'. split; [exact R1|]. split; assumption.
    + right. exists 0%nat, u, f, (Ok (x :: s, st)). split; [|split].
      { intros n. rewrite Nat.add_0_r. reflexivity. }
      { intros ->. split; reflexivity. }
      exists {| cp_splits := x :: s; cp_stats := st; cp_fixed := None; cp_user := None; cp_nref := 0 |}.
      split; [|split; [reflexivity|split; [reflexivity|]]].
      { intros m. eexists. split; [reflexivity|]. split; reflexivity. }
      split; [unfold st, stats; rewrite map_length, seq_length; reflexivity|].
      intros ->. revert EA. unfold st, stats. cbn [length seq map bin_records filter stat_of zsum any c_n existsb Z.eqb]. discriminate.
Qed.
Lemma crefine_shape data u f s :
  (forall n, crefine_st data (mkCP u f n) s = None) \/
  exists k u' f' r, (forall n, crefine_st data (mkCP u f n) s = Some (mkCP u' f' (n + k), r)) /\
    (f = None -> u' = u /\ f' = None) /\
    match r with
    | Ok (s', st) => exists pb, refine_c data (option_map snd f) None s = Some (Ok pb) /\ cp_splits pb = s' /\ cp_stats pb = st /\
                       (st = [] /\ s' = [] \/ length st = S (length s') /\ data <> [])
    | Err _ => True
    end.
Proof.
  destruct s as [|x s].
  - right. exists 0%nat, u, f, (Ok ([], [])). split; [|split].
    + intros n. rewrite Nat.add_0_r. reflexivity.
    + intros ->. split; reflexivity.
    + eexists. cbn [refine_c]. split; [reflexivity|]. split; [reflexivity|]. split; [reflexivity|]. left. split; reflexivity.
  - unfold crefine_st, refine_c.
    destruct (cprebins_shape data (S (length (x :: s))) u f (x :: s)) as [H|(k & u' & f' & r & H & P & R)]; [left; exact H|].
    right. exists k, u', f', r. split; [exact H|]. split; [exact P|]. destruct r as [[s' st]|]; [|exact I].
    destruct R as (pb & R & E1 & E2 & L). destruct (R 0%nat) as (pb' & R1 & R2 & R3). exists pb'.
    split; [exact R1|]. split; [congruence|]. split; [congruence|]. right. exact L.
Qed.

(** ** optimisation and post-processing *)
Lemma merge_total sol : forall acc st, (length sol <= length st)%nat -> exists rows, merge_stats acc sol st = Some rows.
Proof.
  induction sol as [|b sol IH]; intros acc [|c st] L; cbn in L |- *; try lia; try (eexists; reflexivity).
  destruct b; [destruct (IH acc0 st ltac:(lia)) as [r ->]; eexists; reflexivity|apply IH; lia].
Qed.
Definition clean_rows (e : cenv) (d : cdata) (sol : list bool) (st : list cstat) : res (list trow) :=
  match sol, clean_data e d with
  | [], [] => Err ValueError
  | [], _ => Ok [single_row (clean_data e d)]
  | _, _ => match merge_stats acc0 sol st with None => Err IndexError | Some rows => Ok rows end
  end.
Lemma cpost_shape e d srows sol st status s u f :
  exists x, (forall o n, co_user o = u -> co_fixed o = f ->
      cpost e d (c_set_result (mkCO u f (co_nref o + n) (new_old (co_old o) (missing_records d)) (co_status o) (co_splits o)
                                    (co_rows o) (co_table o) (co_fitted o)) status NdArray s) srows sol st NdArray s =
      apply e d o (x n)) /\
    ((forall n, exists k rows, x n = OutC k n u f status s rows) /\ ((length sol <= length st)%nat -> clean_data e d = []) \/
     exists rows, clean_rows e d sol st = Ok rows /\ clean_data e d <> [] /\
       forall n, x n = OutD n u f status s (rows ++ srows) (zmin (map s_x (clean_data e d))) (zmax (map s_x (clean_data e d)))).
Proof.
  unfold cpost. cbv zeta. fold (clean_rows e d sol st). fold (missing_records d).
  destruct (clean_rows e d sol st) as [rows|k] eqn:EC.
  - destruct (clean_data e d) as [|r l] eqn:ED.
    + exists (fun n => OutC ValueError n u f status s (Some (rows ++ srows))). split; [|left; split; [|reflexivity]].
      * intros o n U F. cbn [map apply c_set_rows c_set_result co_user co_fixed co_nref co_old co_status co_splits co_rows co_table co_fitted].
        unfold mrow. rewrite <- app_assoc. reflexivity.
      * intros n. eexists _, _. reflexivity.
    + exists (fun n => OutD n u f status s (rows ++ srows) (zmin (map s_x (r :: l))) (zmax (map s_x (r :: l)))).
      split; [|right; exists rows; split; [reflexivity|split; [discriminate|reflexivity]]].
      intros o n U F. cbn [map]. unfold c_set_table, apply, mrow.
      cbn [c_set_rows c_set_result co_user co_fixed co_nref co_old co_status co_splits co_rows co_table co_fitted].
      rewrite <- !app_assoc. reflexivity.
  - exists (fun n => OutC k n u f status s None). split; [|left; split].
    + intros o n U F. reflexivity.
    + intros n. eexists _, _. reflexivity.
    + intros L. revert EC. unfold clean_rows. destruct sol as [|b sol].
      * destruct (clean_data e d); [reflexivity|discriminate].
      * destruct (merge_total (b :: sol) acc0 st L) as [r ->]. discriminate.
Qed.

Lemma coptimise_shape e d srows u f s st :
  (st = [] /\ s = [] \/ length st = S (length s) /\ clean_data e d <> []) ->
  exists x, (forall o n, co_user o = u -> co_fixed o = f ->
      coptimise e d (mkCO u f (co_nref o + n) (new_old (co_old o) (missing_records d)) (co_status o) (co_splits o)
                          (co_rows o) (co_table o) (co_fitted o)) srows s st = apply e d o (x n)) /\
    ((forall n, exists k, x n = OutB k n u f) \/
     (forall n, exists k status s' rows, x n = OutC k n u f status s' rows) /\ (c_answers_fit e -> clean_data e d = []) \/
     exists status s' rows, clean_data e d <> [] /\
       (let sol := if (length st <=? 1)%nat then repeat false (length s) else csolver e (option_map snd f) (length (cd_recs d)) st in
        clean_rows e d sol st = Ok rows /\ s' = optimal_splits (length st) s sol) /\
       forall n, x n = OutD n u f status s' (rows ++ srows) (zmin (map s_x (clean_data e d))) (zmax (map s_x (clean_data e d)))).
Proof.
  intros SH. unfold coptimise. unfold optimal_splits. cbv zeta.
  destruct (Nat.leb_spec (length st) 1) as [L|L].
  - destruct (cpost_shape e d srows (repeat false (length s)) st 0 s u f) as (x & X & [[A B]|(rows & A & B & C)]).
    + exists x. split; [intros o n U F; apply X; assumption|]. right. left. split.
      * intros n. destruct (A n) as (k & rows & E). rewrite E. eexists _, _, _, _. reflexivity.
      * intros _. apply B. rewrite repeat_length. destruct SH as [[-> ->]|[H _]]; [reflexivity|]. lia.
    + exists x. split; [intros o n U F; apply X; assumption|]. right. right. exists 0, s, rows.
      split; [exact B|]. split; [split; [exact A|]|exact C]. reflexivity.
  - cbn [co_fixed]. unfold csolver.
    destruct (ce_solver e (option_map snd f) (length (cd_recs d)) st) as [[status sol]|k] eqn:ES.
    + destruct (cpost_shape e d srows sol st status (select (init sol) s) u f) as (x & X & [[A B]|(rows & A & B & C)]).
      * exists x. split; [intros o n U F; apply X; assumption|]. right. left. split.
        { intros n. destruct (A n) as (k & rows & E). rewrite E. eexists _, _, _, _. reflexivity. }
        intros AF. apply B. rewrite (proj1 (AF _ _ _ _ _ ES)). reflexivity.
      * exists x. split; [intros o n U F; apply X; assumption|]. right. right. exists status, (select (init sol) s), rows.
        split; [exact B|]. split; [split; [exact A|reflexivity]|exact C].
    + exists (fun n => OutB k n u f). split; [reflexivity|]. left. intros n. exists k. reflexivity.
Qed.

Lemma crefine_opt_shape e d u f s0 : (c_prebin_sorted e -> nondecreasing s0) ->
  exists x, facts e d x /\ (forall o, co_user o = u -> co_fixed o = f -> crefine_and_optimise e d o s0 = apply e d o x) /\
    (f = None -> match x with OutA _ u' f' | OutB _ _ u' f' | OutC _ _ u' f' _ _ _ | OutD _ u' f' _ _ _ _ _ => u' = u /\ f' = None end).
Proof.
  intros ND. unfold crefine_and_optimise. fold (missing_records d).
  destruct (special_rows (ce_special e) (filter (k_special (ce_special e)) (cd_recs d))) as [srows|k] eqn:ES.
  2:{ exists (OutA k u f). split; [exact I|]. split; [|intros ->; split; reflexivity].
      intros o <- <-. destruct o. reflexivity. }
  destruct (crefine_shape (clean_data e d) u f s0) as [H|(k & u' & f' & r & H & P & R)].
  { exists (OutA OtherError u f). split; [exact I|]. split; [|intros ->; split; reflexivity].
    intros o U F. rewrite U, F, H. subst u f. destruct o. reflexivity. }
  destruct r as [[s st]|kk].
  2:{ exists (OutB kk k u' f'). split; [exact I|]. split; [|intros E; exact (P E)].
      intros o U F. rewrite U, F, H. reflexivity. }
  destruct R as (pb & R & E1 & E2 & SH).
  destruct (coptimise_shape e d srows u' f' s st SH) as (x & X & C).
  exists (x k).
  assert (AP : forall o, co_user o = u -> co_fixed o = f ->
     (match crefine_st (clean_data e d) (mkCP (co_user o) (co_fixed o) (co_nref o)) s0 with
      | None => (o, Err OtherError)
      | Some (ps, r) =>
          let o1 := mkCO (cps_user ps) (cps_fixed ps) (cps_nref ps) (new_old (co_old o) (missing_records d)) (co_status o) (co_splits o) (co_rows o)
                        (co_table o) (co_fitted o) in
          match r with
          | Err k => (o1, Err k)
          | Ok (splits, st) => coptimise e d o1 srows splits st
          end
      end) = apply e d o (x k)).
  { intros o U F. rewrite U, F, H. cbv zeta iota beta. cbn [cps_user cps_fixed cps_nref].
    specialize (X (mkCO u' f' (co_nref o) (co_old o) (co_status o) (co_splits o) (co_rows o) (co_table o) (co_fitted o)) k eq_refl eq_refl).
    cbn [co_nref co_old co_status co_splits co_rows co_table co_fitted] in X. rewrite X. unfold apply.
    cbn [co_nref co_old co_status co_splits co_rows co_table co_fitted]. reflexivity. }
  split; [|split; [exact AP|]].
  - destruct C as [C|[[C D]|(status & s' & rows & D & [CR SO] & C)]].
    + destruct (C k) as [k' ->]. exact I.
    + destruct (C k) as (k' & status & s' & rows & ->). exact D.
    + rewrite C. cbn [facts]. split; [|split; [exact D|split; reflexivity]].
      exists (option_map snd f'), (length (cd_recs d)), (option_map snd f), s0. split; [exact ND|]. intros old.
      unfold fit_cont. rewrite ES. fold (clean_data e d). cbv zeta. rewrite R, E1, E2. cbv zeta.
      set (sol := if (length st <=? 1)%nat then repeat false (length s) else csolver e (option_map snd f') (length (cd_recs d)) st) in *.
      fold (missing_records d). rewrite <- (missing_row_new old d). revert CR. unfold clean_rows.
      destruct sol as [|b sol'] eqn:EL.
      * destruct (clean_data e d) as [|r l] eqn:ED; [discriminate|]. intros K. injection K as <-.
        eexists. split; [reflexivity|]. cbn [cf_splits cf_rows]. split; [congruence|]. cbn [app]. reflexivity.
      * destruct (merge_stats acc0 (b :: sol') st) as [rows'|] eqn:EM; [|discriminate]. intros K. injection K as <-.
        eexists. split; [reflexivity|]. cbn [cf_splits cf_rows]. split; [congruence|]. rewrite app_assoc. reflexivity.
  - intros E. destruct (P E) as [-> ->]. destruct C as [C|[[C _]|(status & s' & rows & _ & _ & C)]].
    + destruct (C k) as [k' ->]. split; reflexivity.
    + destruct (C k) as (k' & status & s' & rows & ->). split; reflexivity.
    + rewrite C. split; reflexivity.
Qed.

(** ** The outcome depends on the parameters and the data only *)
Lemma cfit_shape e d u f :
  exists x, facts e d x /\ (forall o, co_user o = u -> co_fixed o = f -> cfit e d o = apply e d o x) /\
    (f = None -> match x with OutA _ u' f' | OutB _ _ u' f' | OutC _ _ u' f' _ _ _ | OutD _ u' f' _ _ _ _ _ => u' = u /\ f' = None end).
Proof.
  unfold cfit.
  assert (N : forall k, exists x, facts e d x /\ (forall o, co_user o = u -> co_fixed o = f -> (o, Err k : res unit) = apply e d o x) /\
    (f = None -> match x with OutA _ u' f' | OutB _ _ u' f' | OutC _ _ u' f' _ _ _ | OutD _ u' f' _ _ _ _ _ => u' = u /\ f' = None end)).
  { intros k. exists (OutA k u f). split; [exact I|]. split; [|intros ->; split; reflexivity].
    intros o <- <-. destruct o. reflexivity. }
  destruct (cparams_ok (cnew u f)) eqn:PO.
  2:{ destruct (N ValueError) as (x & A & B & C). exists x. split; [exact A|]. split; [|exact C].
      intros o U F. assert (E : cparams_ok o = false). { rewrite <- PO. unfold cparams_ok. rewrite U, F. reflexivity. }
      rewrite E. cbn [negb]. apply B; assumption. }
  assert (PO' : forall o, co_user o = u -> co_fixed o = f -> cparams_ok o = true).
  { intros o U F. rewrite <- PO. unfold cparams_ok. rewrite U, F. reflexivity. }
  destruct u as [[c [|a us]]|] eqn:EU.
  - destruct (N OtherError) as (x & A & B & C). exists x. split; [exact A|]. split; [|exact C].
    intros o U F. rewrite (PO' o U F), U. cbn [negb]. apply B; assumption.
  - destruct (distinct (a :: us)) eqn:ED.
    + destruct (crefine_opt_shape e d u (option_map (fun p => (true, permuted (a :: us) (snd p))) f) (sorted_splits (a :: us)))
        as (x & A & B & C); [intros _; apply sorted_splits_nondecr|].
      exists x. split; [exact A|]. split.
      * intros o U F. rewrite (PO' o U F), U. rewrite ED. cbn [negb]. rewrite <- U, F. rewrite B; [|cbn [co_user]; congruence|reflexivity].
        unfold apply. cbn [co_nref co_old co_status co_splits co_rows co_table co_fitted]. reflexivity.
      * intros ->. cbn [option_map] in C. subst u. apply C. reflexivity.
    + destruct (N ValueError) as (x & A & B & C). exists x. split; [exact A|]. split; [|exact C].
      intros o U F. rewrite (PO' o U F), U, ED. cbn [negb]. apply B; assumption.
  - destruct (ce_prebin e (clean_data e d)) as [s0|k] eqn:EP.
    + destruct (crefine_opt_shape e d None f s0) as (x & A & B & C); [intros S; exact (S _ _ EP)|].
      exists x. split; [exact A|]. split; [|exact C].
      intros o U F. rewrite (PO' o U F), U. cbn [negb]. apply B; assumption.
    + destruct (N k) as (x & A & B & C). exists x. split; [exact A|]. split; [|exact C].
      intros o U F. rewrite (PO' o U F), U. cbn [negb]. apply B; assumption.
Qed.
