(** C83: the piecewise binning objects over any history of calls. *)
From Coq Require Import List ZArith Reals Bool Arith String Ascii Lia Lra.
From Verif Require Import Model.Arr Model.Core Model.Cont Model.Piecewise Model.PWLife Spec.PWLifeSpec Proofs.CoreP Proofs.PWLifeP Proofs.PWLifeQ.
Import ListNotations.
Open Scope Z_scope.

(** transform, splits, status and binning_table raise NotFittedError exactly when no call of the history fits a new object
    (a fit_transform whose transform raises does fit the object) -- or, for splits and transform, possibly after a failed
    refit, see C83_failed_refit. *)
Theorem C83_not_fitted_iff : forall e est h o outs, pexec e (pnew est) h = (o, outs) ->
  (forall c, c = PStatus \/ c = PTable -> (p_answer e o c = Err NotFitted <-> ~ exists c', In c' h /\ fits_new e est c')) /\
  (forall c, p_needs_fit c -> (~ exists c', In c' h /\ fits_new e est c') -> p_answer e o c = Err NotFitted).
Proof.
  intros e est h o outs H. pose proof (exec_fitted e est h (pnew est) (new_est_ok est)) as F. rewrite H in F. cbn [fst pnew po_fitted] in F.
  rewrite orb_false_r in F.
  assert (K : po_fitted o = true <-> exists c', In c' h /\ fits_new e est c').
  { rewrite F, existsb_exists. split; intros (c & A & B); exists c; (split; [exact A|]); now apply fits_new_iff. }
  assert (N : (~ exists c', In c' h /\ fits_new e est c') <-> po_fitted o = false).
  { rewrite <- K. destruct (po_fitted o); split; congruence. }
  split.
  - intros c Hc. rewrite N. unfold p_answer. destruct Hc as [-> | ->]; cbn [pstep snd]; destruct (po_fitted o); cbn [negb]; split; congruence.
  - intros c Hc Hno. apply N in Hno. unfold p_answer. destruct c; try contradiction; cbn [pstep snd]; unfold pwl_transform; rewrite Hno; reflexivity.
Qed.
Print Assumptions C83_not_fitted_iff.

(** Whether a fit or fit_transform succeeds, what it raises or returns, does not depend on the history; after a fit that
    succeeds the object cannot be told from a new object after that fit alone, whatever is called next. *)
Theorem C83_fit_forgets_history : forall e est h o outs, pexec e (pnew est) h = (o, outs) ->
  (forall d lb ub check, p_answer e o (PFit d lb ub check) = p_answer e (pnew est) (PFit d lb ub check)) /\
  (forall d m ms mm lb ub check,
     p_answer e o (PFitTransform d m ms mm lb ub check) = p_answer e (pnew est) (PFitTransform d m ms mm lb ub check)) /\
  (forall c, fits_new e est c ->
     forall h2, snd (pexec e (fst (pstep e o c)) h2) = snd (pexec e (fst (pstep e (pnew est) c)) h2)).
Proof.
  intros e est h o outs H.
  assert (Ho : est_ok est o). { pose proof (exec_est_ok e est h (pnew est) (new_est_ok est)) as E. rewrite H in E. exact E. }
  assert (NE : forall s, is_done s = true -> po_est (fst (after e o s)) = po_est (fst (after e (pnew est) s)) \/ pe_kind e = PWContinuous).
  { intros s Hs. destruct s; try discriminate. cbn [after fst po_est]. unfold newest.
    destruct (pe_kind e); [left|now right]. rewrite (est_ok_same est o Ho). destruct est; reflexivity. }
  assert (EC : pe_kind e = PWContinuous -> po_est o = est).
  { intro Hk. assert (G : forall h' o', po_est (fst (pexec e o' h')) = po_est o').
    { clear - Hk. induction h' as [|c h' IH]; intro o'; [reflexivity|]. cbn [pexec].
      pose proof (step_state e (po_est o') o' c (or_introl eq_refl)) as S. destruct (pstep e o' c) as [o'' v]. cbn [fst] in S.
      specialize (IH o''). destruct (pexec e o'' h'). cbn [fst] in *. rewrite IH, S.
      destruct (call_stop _ _ _); [|reflexivity]. destruct s; cbn [after fst]; try destruct est; cbn [po_est]; unfold newest; rewrite ?Hk; reflexivity. }
    specialize (G h (pnew est)). rewrite H in G. exact G. }
  assert (SAME : forall s, is_done s = true -> fst (after e o s) = fst (after e (pnew est) s)).
  { intros s Hs. specialize (NE s Hs). destruct s; try discriminate. cbn [after fst] in *. cbn [po_est] in NE.
    destruct NE as [NE|Hk]; [now rewrite NE|]. unfold newest. rewrite Hk. rewrite (EC Hk). reflexivity. }
  assert (ANS : forall s, snd (after e o s) = snd (after e (pnew est) s)) by (intros []; reflexivity).
  repeat split.
  - intros. unfold p_answer. cbn [pstep]. rewrite !fit_after, (est_ok_same est o Ho). cbn [pnew po_est].
    pose proof (ANS (fit_stop e (match est with None => 0 | Some s => s end) d lb ub check)) as A.
    fold (pnew est). destruct (after e o _), (after e (pnew est) _). cbn [snd] in *. now rewrite A.
  - intros. unfold p_answer. cbn [pstep]. destruct (ft_args (pe_kind e) lb ub check) as [[l u] ch].
    rewrite !fit_after, (est_ok_same est o Ho). cbn [pnew po_est]. fold (pnew est).
    set (s := fit_stop e (match est with None => 0 | Some s => s end) d l u ch).
    pose proof (ANS s) as A. pose proof (SAME s) as B.
    destruct (is_done s) eqn:Hs.
    + specialize (B eq_refl). destruct (after e o s) as [a b], (after e (pnew est) s) as [a' b']. cbn [fst snd] in *. now subst.
    + clearbody s. destruct s; try discriminate; reflexivity.
  - intros c Hc h2. apply fits_new_iff in Hc. rewrite (step_state e est o c Ho), (step_state e est (pnew est) c (new_est_ok est)).
    unfold call_done in Hc. destruct (call_stop _ _ _) as [s|]; [|discriminate]. now rewrite (SAME s Hc).
Qed.
Print Assumptions C83_fit_forgets_history.

(** The binning table after any history that ends with a successful fit describes the data of that fit only: the split
    points and bins of a new inner binning of the clean records, the polynomials of the regression, the given bounds
    (continuous target), and the special and missing records of that data. *)
Theorem C83_table_of_the_last_fit : forall e est h o0 outs d lb ub check o, pexec e (pnew est) h = (o0, outs) ->
  pstep e o0 (PFit d lb ub check) = (o, Ok PVNone) ->
  exists pred i st c t, starts_binning e est d check pred /\ pe_inner e (clean_pairs e d) = Ok i /\
    pe_regress e (clean_pairs e d) pred (in_splits i) lb ub = Ok (st, c) /\
    p_answer e o PTable = Ok (PVTable (Some t)) /\ p_answer e o PSplits = Ok (PVSplits (pt_splits t)) /\
    p_answer e o PStatus = Ok (PVStatus (retrieve_status st)) /\
    pt_splits t = in_splits i /\ pt_coef t = c /\
    match pe_kind e with
    | PWBinary => exists l s, in_rows i = BRows l /\
        pt_rows t = BRows (l ++ s ++ [(n_where (fun r => is_missing r && nonevent r) d,
                                       n_where (fun r => is_missing r && negb (nonevent r)) d)]) /\
        List.length s = special_rows_count (pe_special e) /\
        forall j ne ev, nth_error s j = Some (ne, ev) ->
          ne = n_where (fun r => in_special_row (pe_special e) j r && nonevent r) d /\
          ev = n_where (fun r => in_special_row (pe_special e) j r && negb (nonevent r)) d
    | PWContinuous => pt_lb t = lb /\ pt_ub t = ub /\
        exists l s m, in_rows i = CRows l /\ pt_rows t = CRows (l ++ s ++ [m]) /\
        r_n m = n_where is_missing d /\ (n_where is_missing d = 0 -> r_min m = ENaN /\ r_max m = ENaN /\ r_std m = StdNaN) /\
        List.length s = special_rows_count (pe_special e) /\
        forall j row, nth_error s j = Some row -> r_n row = n_where (in_special_row (pe_special e) j) d
    end.
Proof.
  intros e est h o0 outs d lb ub check o H Hs.
  assert (Ho : est_ok est o0). { pose proof (exec_est_ok e est h (pnew est) (new_est_ok est)) as E. rewrite H in E. exact E. }
  cbn [pstep] in Hs. rewrite fit_after, (est_ok_same est o0 Ho) in Hs.
  assert (PB : exists pred, starts_binning e est d check pred /\
     fit_stop e (match est with None => 0 | Some s => s end) d lb ub check = binning_stop e d pred lb ub).
  { unfold starts_binning. unfold fit_stop in *. destruct (pe_valid e); cbn [negb] in *; [|discriminate].
    destruct (pd_bad d && check)%bool; [discriminate|]. destruct (pe_kind e).
    - destruct (pe_predict _ _ _) as [p|]; [|discriminate]. exists p. auto.
    - eexists. split; [|reflexivity]. auto. }
  destruct PB as (pred & SB & FS). rewrite FS in Hs. unfold binning_stop in Hs.
  destruct (pe_inner e (clean_pairs e d)) as [i|] eqn:Ei; [|discriminate].
  destruct (pe_regress e (clean_pairs e d) pred (in_splits i) lb ub) as [[st c]|] eqn:Er; [|discriminate].
  unfold post_stop in Hs. destruct (pw_aside e d i) as [[a rows]|] eqn:Ea; [|discriminate]. cbv zeta in Hs.
  destruct (pe_metrics _ _ _ _ _ _ _) as [m|]; [|discriminate].
  destruct (map fst (clean_pairs e d)) as [|x0 xs] eqn:Ex; [discriminate|]. cbn [after] in Hs. injection Hs as <-.
  exists pred, i, st, c. eexists. split; [exact SB|]. split; [reflexivity|]. split; [exact Er|]. split; [reflexivity|].
  split; [reflexivity|]. split; [reflexivity|]. split; [reflexivity|]. split; [reflexivity|].
  cbn [pt_lb pt_ub pt_rows].
  assert (FM : forall (f : krec -> bool) (g : xval * option Z -> bool), (forall r, f (to_krec r) = g r) ->
             Z.of_nat (List.length (filter f (recs d))) = n_where g d).
  { intros f g Hfg. unfold n_where, recs. f_equal. induction (pd_recs d) as [|r l IH]; [reflexivity|].
    cbn [map filter]. rewrite Hfg. destruct (g r); cbn [List.length]; now rewrite IH. }
  assert (FF : forall (f1 f2 : krec -> bool) (l : list krec), filter f2 (filter f1 l) = filter (fun r => f1 r && f2 r)%bool l).
  { intros f1 f2 l. induction l as [|r l IH]; [reflexivity|]. cbn [filter]. destruct (f1 r); cbn [andb filter]; [destruct (f2 r)|]; now rewrite IH. }
  assert (WS : forall l : list krec, Forall (fun r => k_w r = 1) l -> zsum (map k_w l) = Z.of_nat (List.length l)).
  { intros l Hl. induction Hl as [|r l Hr _ IH]; [reflexivity|]. cbn [map zsum fold_right List.length] in *. rewrite Nat2Z.inj_succ. 
    change (zsum (k_w r :: map k_w l)) with (k_w r + zsum (map k_w l)). lia. }
  assert (W1 : forall f, Forall (fun r => k_w r = 1) (filter f (recs d))).
  { intro f. apply Forall_forall. intros r Hr. apply filter_In in Hr. destruct Hr as [Hr _]. unfold recs in Hr.
    apply in_map_iff in Hr. destruct Hr as (x & <- & _). reflexivity. }
  unfold pw_aside in Ea. destruct (pe_kind e), (in_rows i) as [l|l]; try discriminate.
  - injection Ea as _ <-. exists l, (pw_special_counts (pe_special e) (filter (k_special (pe_special e)) (recs d))).
    split; [reflexivity|]. split.
    { f_equal. f_equal. f_equal. f_equal. unfold pw_counts. rewrite !FF. f_equal; apply FM; intro r; reflexivity. }
    split. { unfold pw_special_counts, special_rows_count. destruct (pe_special e); try reflexivity. apply map_length. }
    intros j ne ev Hj. unfold pw_special_counts, in_special_row in *. destruct (pe_special e) as [|codes|dd] eqn:Esp.
    + destruct j as [|[|j]]; try discriminate Hj. cbn [nth_error] in Hj. injection Hj as <- <-. rewrite !FF.
      split; apply FM; intro r; reflexivity.
    + destruct j as [|[|j]]; try discriminate Hj. cbn [nth_error] in Hj. injection Hj as <- <-. rewrite !FF.
      split; apply FM; intro r; reflexivity.
    + rewrite nth_error_map in Hj. destruct (nth_error dd j) as [kv|] eqn:Ek; [|discriminate]. cbn [option_map] in Hj.
      injection Hj as <- <-. rewrite !FF.
      assert (IN : forall x, isin (snd kv) x = true -> isin (flat_codes (SpDict dd)) x = true).
      { intros x Hx. apply isin_In. apply isin_In in Hx. cbn [flat_codes]. apply in_concat. exists (snd kv). split; [|exact Hx].
        apply in_map. eapply nth_error_In. exact Ek. }
      split; apply FM; intro r; cbn [k_special k_x to_krec k_y snd]; unfold k_special; cbn [to_krec k_x k_y];
        (destruct (isin (snd kv) (fst r)) eqn:Ei1; [rewrite (IN _ Ei1)|rewrite !andb_false_r]; reflexivity).
  - split; [reflexivity|]. split; [reflexivity|].
    destruct (special_rows (pe_special e) (filter (k_special (pe_special e)) (recs d))) as [s|] eqn:Es; [|discriminate].
    cbn [rbind] in Ea. injection Ea as _ <-. exists l, s, (missing_row fresh (filter k_missing (recs d))).
    split; [reflexivity|]. split; [reflexivity|].
    assert (MC : zsum (map k_w (filter k_missing (recs d))) = n_where is_missing d).
    { rewrite (WS _ (W1 k_missing)). apply FM. intro r. reflexivity. }
    split; [cbn [missing_row r_n]; exact MC|]. split.
    { intro H0. rewrite <- MC, (WS _ (W1 k_missing)) in H0. destruct (filter k_missing (recs d)); [auto|discriminate]. }
    unfold special_rows, special_rows_count, in_special_row in *.
    destruct (pe_special e) as [|codes|dd] eqn:Esp.
    + injection Es as <-. split; [reflexivity|]. intros [|[|j]] row Hj; try discriminate Hj. injection Hj as <-.
      cbn [special_row missing_row r_n]. rewrite (WS _ (W1 _)). apply FM. intro r. reflexivity.
    + injection Es as <-. split; [reflexivity|]. intros [|[|j]] row Hj; try discriminate Hj. injection Hj as <-.
      cbn [special_row missing_row r_n]. rewrite (WS _ (W1 _)). apply FM. intro r. reflexivity.
    + assert (E : s = map (fun kv => dict_row (filter (fun r => isin (snd kv) (k_x r)) (filter (k_special (SpDict dd)) (recs d)))) dd).
      { destruct (filter (k_special (SpDict dd)) (recs d)), dd; congruence. }
      rewrite E. split; [apply map_length|]. intros j row Hj. rewrite nth_error_map in Hj.
      destruct (nth_error dd j) as [kv|] eqn:Ek; [|discriminate]. injection Hj as <-. cbn [dict_row r_n]. rewrite FF, (WS _ (W1 _)).
      apply FM. intro r. unfold k_special. cbn [to_krec k_x]. destruct (isin (snd kv) (fst r)) eqn:Ei1; [|apply andb_false_r].
      rewrite andb_true_r. apply isin_In. apply isin_In in Ei1. cbn [flat_codes]. apply in_concat. exists (snd kv). split; [|exact Ei1].
      apply in_map. eapply nth_error_In. exact Ek.
Qed.
Print Assumptions C83_table_of_the_last_fit.

(** What a fit that raises leaves of a fitted object, according to where it stops. *)
Theorem C83_failed_refit : forall e est h o outs d lb ub check o' k, pexec e (pnew est) h = (o, outs) ->
  (exists s, p_answer e o PStatus = Ok (PVStatus s)) ->
  pstep e o (PFit d lb ub check) = (o', Err k) ->
  p_answer e o' PTable = p_answer e o PTable /\
  (* it stops before the binning (parameters, data, estimator): every answer is unchanged *)
  ((~ exists pred, starts_binning e est d check pred) -> forall c, p_query c -> p_answer e o' c = p_answer e o c) /\
  forall pred, starts_binning e est d check pred ->
  (* the inner binning raises: no split points and no transform any more, the old status and table *)
  (forall k', pe_inner e (clean_pairs e d) = Err k' ->
     p_answer e o' PSplits = Err NotFitted /\
     (forall xs bad m ms mm l u ch, p_answer e o' (PTransform xs bad m ms mm l u ch) = Err NotFitted) /\
     p_answer e o' PStatus = p_answer e o PStatus) /\
  (forall i, pe_inner e (clean_pairs e d) = Ok i ->
     (* otherwise: the new split points *)
     p_answer e o' PSplits = Ok (PVSplits (in_splits i)) /\
     (forall k', pe_regress e (clean_pairs e d) pred (in_splits i) lb ub = Err k' -> p_answer e o' PStatus = p_answer e o PStatus) /\
     (forall st c, pe_regress e (clean_pairs e d) pred (in_splits i) lb ub = Ok (st, c) ->
        p_answer e o' PStatus = Ok (PVStatus (retrieve_status st)))).
Proof.
  intros e est h o outs d lb ub check o' k H Hf Hs.
  assert (Ho : est_ok est o). { pose proof (exec_est_ok e est h (pnew est) (new_est_ok est)) as E. rewrite H in E. exact E. }
  apply status_answer in Hf.
  cbn [pstep] in Hs. rewrite fit_after, (est_ok_same est o Ho) in Hs.
  set (s := fit_stop e (match est with None => 0 | Some s => s end) d lb ub check) in *.
  destruct (after e o s) as [o1 r] eqn:Ea. destruct r as [u|k1]; [discriminate|]. injection Hs as -> ->.
  assert (TB : po_fitted o' = true /\ po_table o' = po_table o).
  { clearbody s. destruct s; cbn [after] in Ea; try discriminate; injection Ea as <- <-; try (destruct est0); cbn [po_fitted po_table]; auto. }
  destruct TB as [F' T']. split; [unfold p_answer; cbn [pstep snd]; rewrite F', Hf, T'; reflexivity|].
  assert (SB : forall pred, starts_binning e est d check pred -> s = binning_stop e d pred lb ub).
  { intros pred (Hv & Hb & Hp). unfold s, fit_stop. rewrite Hv, Hb. cbn [negb]. destruct (pe_kind e); rewrite Hp; reflexivity. }
  split.
  - intros Hno. assert (NS : exists b, s = NoStart b k).
    { unfold s, fit_stop in Ea |- *. destruct (pe_valid e) eqn:V; cbn [negb] in Ea |- *.
      2:{ cbn [after] in Ea. injection Ea as <- <-. eexists; reflexivity. }
      destruct (pd_bad d && check)%bool eqn:B. { cbn [after] in Ea. injection Ea as <- <-. eexists; reflexivity. }
      destruct (pe_kind e) eqn:K.
      - destruct (pe_predict _ _ _) as [p|k'] eqn:P.
        + destruct Hno. exists p. unfold starts_binning. rewrite K. auto.
        + cbn [after] in Ea. injection Ea as <- <-. eexists; reflexivity.
      - destruct Hno. eexists. unfold starts_binning. rewrite K. eauto. }
    destruct NS as [b Hb]. rewrite Hb in Ea. cbn [after] in Ea. injection Ea as <-.
    intros c Hc. unfold p_answer. destruct b; [|reflexivity].
    destruct c; try contradiction; reflexivity.
  - intros pred Hsb. specialize (SB pred Hsb). rewrite SB in Ea. unfold binning_stop in Ea. split.
    + intros k' Hi. rewrite Hi in Ea. cbn [after] in Ea. injection Ea as <- <-. unfold p_answer. cbn [pstep snd po_fitted po_optb po_status].
      rewrite Hf. cbn [negb]. split; [reflexivity|]. split; [|reflexivity].
      intros. reflexivity.
    + intros i Hi. rewrite Hi in Ea. destruct (pe_regress e (clean_pairs e d) pred (in_splits i) lb ub) as [[st c]|k'] eqn:Er.
      * pose proof (post_stop_late e d i c (retrieve_status st) lb ub) as L.
        assert (SHAPE : po_optb o' = Some (Some i) /\ po_status o' = retrieve_status st).
        { unfold post_stop in *. destruct (pw_aside e d i) as [[a rows]|k'].
          - cbv zeta in *. destruct (pe_metrics _ _ _ _ _ _ _).
            + destruct (map fst _); cbn [after] in Ea; [|discriminate]. injection Ea as <- _. split; reflexivity.
            + cbn [after] in Ea. injection Ea as <- _. split; reflexivity.
          - cbn [after] in Ea. injection Ea as <- _. split; reflexivity. }
        destruct SHAPE as [S1 S2]. unfold p_answer. cbn [pstep snd]. rewrite F'. cbn [negb]. rewrite S1, S2.
        split; [reflexivity|]. split; [discriminate|]. intros st' c' [= <- <-]. reflexivity.
      * cbn [after] in Ea. injection Ea as <- <-. unfold p_answer. cbn [pstep snd po_fitted po_optb po_status]. rewrite Hf. cbn [negb].
        split; [reflexivity|]. split; [reflexivity|]. discriminate.
Qed.
Print Assumptions C83_failed_refit.

(** After a refit whose regression raises and that found more bins than the fit before, every transform with valid
    arguments raises IndexError (the polynomials are those of the old bins). *)
Theorem C83_failed_regression_index_error : forall e est h d1 lb1 ub1 check1 o outs d lb ub check o' k pred i k' s1,
  one_poly_per_bin e ->
  pexec e (pnew est) (h ++ [PFit d1 lb1 ub1 check1]) = (o, outs) -> fits_new e est (PFit d1 lb1 ub1 check1) ->
  p_answer e o PSplits = Ok (PVSplits s1) ->
  pstep e o (PFit d lb ub check) = (o', Err k) -> starts_binning e est d check pred ->
  pe_inner e (clean_pairs e d) = Ok i -> pe_regress e (clean_pairs e d) pred (in_splits i) lb ub = Err k' ->
  (List.length s1 < List.length (in_splits i))%nat ->
  forall xs m ms mm l u, p_answer e o' (PTransform xs false (Some m) ms mm l u check) = Err IndexError.
Proof.
  intros e est h d1 lb1 ub1 check1 o outs d lb ub check o' k pred i k' s1 Hp H Hn Hsp Hs Hst Hi Hr Hlen xs m ms mm l u.
  assert (EX : exists o0, est_ok est o0 /\ o = fst (pstep e o0 (PFit d1 lb1 ub1 check1))).
  { assert (G : forall h' oo oo' outs', pexec e oo (h' ++ [PFit d1 lb1 ub1 check1]) = (oo', outs') -> est_ok est oo ->
                exists o0, est_ok est o0 /\ oo' = fst (pstep e o0 (PFit d1 lb1 ub1 check1))).
    { induction h' as [|c h' IH]; intros oo oo' outs' Hx Hoo.
      - exists oo. split; [exact Hoo|]. cbn [app pexec] in Hx. destruct (pstep e oo _). injection Hx as <- _. reflexivity.
      - cbn [app pexec] in Hx. pose proof (step_est_ok e est oo c Hoo) as S. destruct (pstep e oo c) as [o2 v].
        destruct (pexec e o2 _) as [o3 l3] eqn:E3. injection Hx as <- _. exact (IH o2 o3 l3 E3 S). }
    exact (G h (pnew est) o outs H (new_est_ok est)). }
  destruct EX as (o0 & Ho0 & ->). pose proof (step_est_ok e est o0 (PFit d1 lb1 ub1 check1) Ho0) as Ho.
  apply fits_new_iff in Hn. unfold call_done in Hn. cbn [call_stop] in Hn.
  rewrite (step_state e est o0 _ Ho0) in *. cbn [call_stop] in *.
  destruct (fit_stop e _ d1 lb1 ub1 check1) as [| | | | |i1 c1 s' a1 t1] eqn:E1; try discriminate Hn.
  assert (L1 : List.length c1 = S (List.length (in_splits i1))).
  { unfold fit_stop in E1. destruct (negb (pe_valid e)); [discriminate|]. destruct (pd_bad d1 && check1)%bool; [discriminate|].
    assert (B : forall p, binning_stop e d1 p lb1 ub1 = Done i1 c1 s' a1 t1 -> List.length c1 = S (List.length (in_splits i1))).
    { intros p E. unfold binning_stop in E. destruct (pe_inner e (clean_pairs e d1)) as [i2|]; [|discriminate].
      destruct (pe_regress e (clean_pairs e d1) p (in_splits i2) lb1 ub1) as [[st c]|] eqn:R; [|discriminate].
      unfold post_stop in E. destruct (pw_aside e d1 i2) as [[a rows]|]; [|discriminate]. cbv zeta in E.
      destruct (pe_metrics _ _ _ _ _ _ _); [|discriminate]. destruct (map fst _); [discriminate|]. injection E as <- <- _ _ _.
      exact (Hp _ _ _ _ _ _ _ R). }
    destruct (pe_kind e); [|exact (B _ E1)]. destruct (pe_predict _ _ _); [exact (B _ E1)|discriminate]. }
  cbn [after fst] in *. set (o := mkPO (newest e o0) (Some (Some i1)) (Some c1) s' (Some a1) (Some t1) true) in *.
  unfold p_answer in Hsp. cbn in Hsp. injection Hsp as <-.
  cbn [pstep] in Hs. rewrite fit_after, (est_ok_same est o Ho) in Hs.
  destruct Hst as (Hv & Hb & Hk).
  assert (FS : fit_stop e (match est with None => 0 | Some z => z end) d lb ub check = RegressFails i k').
  { unfold fit_stop. rewrite Hv, Hb. cbn [negb]. destruct (pe_kind e); unfold binning_stop; rewrite ?Hk, Hi; [rewrite Hr; reflexivity|].
    rewrite <- Hk, Hr. reflexivity. }
  rewrite FS in Hs. cbn [after] in Hs. injection Hs as <- <-.
  unfold p_answer. cbn [pstep snd]. unfold pwl_transform. cbn [po_fitted po_optb po_c po_aside o negb].
  assert (LT : (List.length c1 <? S (List.length (in_splits i)))%nat = true) by (apply Nat.ltb_lt; lia).
  rewrite LT. cbn [andb]. destruct a1; reflexivity.
Qed.
Print Assumptions C83_failed_regression_index_error.

(** fit_transform: for the binary target it is fit followed by transform with the same arguments. *)
Theorem C83_binary_fit_transform : forall e o d m ms mm lb ub check, pe_kind e = PWBinary ->
  let fitted := pstep e o (PFit d lb ub check) in
  pstep e o (PFitTransform d m ms mm lb ub check) =
  (fst fitted, match snd fitted with
               | Err k => Err k
               | Ok _ => p_answer e (fst fitted) (PTransform (map fst (pd_recs d)) (pd_bad d) m ms mm lb ub check)
               end).
Proof.
  intros e o d m ms mm lb ub check Hk. cbn [pstep]. unfold p_answer. cbn [pstep snd]. rewrite Hk. cbn [ft_args].
  destruct (pwl_fit _ _ _ _ _ _) as [o' r]. cbn [fst snd]. destruct r; reflexivity.
Qed.
Print Assumptions C83_binary_fit_transform.
(** ... for the continuous target the fit gets lb = 0 (1 with check_input=True), no ub and check_input=False, whatever
    lb, ub and check_input were given; only transform gets them. *)
Theorem C83_continuous_fit_transform : forall e o d m ms mm lb ub (check : bool), pe_kind e = PWContinuous ->
  let fitted := pstep e o (PFit d (Some (if check then 1 else 0)%R) None false) in
  pstep e o (PFitTransform d m ms mm lb ub check) =
  (fst fitted, match snd fitted with
               | Err k => Err k
               | Ok _ => p_answer e (fst fitted) (PTransform (map fst (pd_recs d)) (pd_bad d) m ms mm lb ub check)
               end) /\
  (snd fitted = Ok PVNone -> exists t, p_answer e (fst fitted) PTable = Ok (PVTable (Some t)) /\
     pt_lb t = Some (if check then 1 else 0)%R /\ pt_ub t = None).
Proof.
  intros e o d m ms mm lb ub check Hk. split.
  - cbn [pstep]. unfold p_answer. cbn [pstep snd]. rewrite Hk. cbn [ft_args].
    destruct (pwl_fit _ _ _ _ _ _) as [o' r]. cbn [fst snd]. destruct r; reflexivity.
  - cbn [pstep]. rewrite fit_after. unfold fit_stop. rewrite Hk.
    destruct (negb (pe_valid e)); [cbn; discriminate|]. destruct (pd_bad d && false)%bool; [cbn; discriminate|].
    unfold binning_stop. destruct (pe_inner e _); [|cbn; discriminate]. destruct (pe_regress _ _ _ _ _ _) as [[st c]|]; [|cbn; discriminate].
    unfold post_stop. destruct (pw_aside e d a) as [[a0 rows]|]; [|cbn; discriminate]. rewrite Hk. cbv zeta.
    destruct (pe_metrics _ _ _ _ _ _ _); [|cbn; discriminate]. destruct (map fst _); [cbn; discriminate|].
    intros _. eexists. split; [reflexivity|]. split; reflexivity.
Qed.
Print Assumptions C83_continuous_fit_transform.

(** The estimator parameter: a given one is never replaced; None stays None until a fit of the binary class gets past the
    parameters and the data, and is LogisticRegression() (0) from then on. *)
Theorem C83_estimator_parameter : forall e est h o outs, pexec e (pnew est) h = (o, outs) ->
  exists est', p_answer e o PEstimator = Ok (PVEstimator est') /\
    (forall z, est = Some z -> est' = Some z) /\
    (est = None -> est' = None \/ (est' = Some 0 /\ pe_kind e = PWBinary /\ pe_valid e = true)).
Proof.
  intros e est h o outs H. exists (po_est o). split; [reflexivity|].
  assert (Ho : est_ok est o). { pose proof (exec_est_ok e est h (pnew est) (new_est_ok est)) as E. rewrite H in E. exact E. }
  split.
  - intros z ->. destruct Ho as [-> | [[=] _]]. reflexivity.
  - intros ->. destruct Ho as [-> | [_ E]]; [now left|right]. split; [exact E|].
    assert (G : forall h' o', po_est o' = None -> po_est (fst (pexec e o' h')) = None \/ (pe_kind e = PWBinary /\ pe_valid e = true)).
    { induction h' as [|c h' IH]; intros o' Hn; [now left|]. cbn [pexec].
      pose proof (step_state e None o' c (or_introl Hn)) as S. destruct (pstep e o' c) as [o'' v]. cbn [fst] in S.
      destruct (pe_kind e) eqn:K; [destruct (pe_valid e) eqn:V; [now right|]|].
      - assert (N : po_est o'' = None).
        { rewrite S. destruct (call_stop e 0 c) as [s|] eqn:C; [|exact Hn].
          assert (X : exists b0 k0, s = NoStart b0 k0 /\ b0 = false).
          { destruct c; cbn [call_stop] in C; try discriminate; unfold fit_stop in C; rewrite ?V in C; cbn [negb] in C;
              rewrite ?K in C; cbn [ft_args] in C; injection C as <-; eauto. }
          destruct X as (b0 & k0 & -> & ->). exact Hn. }
        specialize (IH o'' N). destruct (pexec e o'' h'). exact IH.
      - assert (N : po_est o'' = None).
        { rewrite S. destruct (call_stop e 0 c) as [s|]; [|exact Hn].
          destruct s; cbn [after fst]; try destruct est; cbn [po_est]; unfold newest; rewrite ?K; exact Hn. }
        specialize (IH o'' N). destruct (pexec e o'' h'). exact IH. }
    specialize (G h (pnew None) eq_refl). rewrite H in G. cbn [fst] in G. destruct G as [G|G]; [congruence|exact G].
Qed.
Print Assumptions C83_estimator_parameter.

(** The status string: OPTIMAL exactly when every problem's status has the word "optimal"; FEASIBLE exactly when every one
    has "feasible" and not "optimal"; UNBOUNDED likewise. *)
Theorem C83_status_words : forall st,
  (retrieve_status st = Some "OPTIMAL"%string <-> all_have "optimal" st) /\
  (some_problem st ->
   (retrieve_status st = Some "FEASIBLE"%string <-> all_have "feasible" st /\ none_has "optimal" st) /\
   (retrieve_status st = Some "UNBOUNDED"%string <-> all_have "unbounded" st /\ none_has "optimal" st /\ none_has "feasible" st)).
Proof.
  intros [s|l].
  - cbn [all_have none_has]. rewrite <- verdict_optimal. split.
    + cbn [retrieve_status]. destruct (verdict_of s); split; congruence.
    + intros _. rewrite verdict_optimal, <- verdict_feasible, <- verdict_unbounded. cbn [retrieve_status].
      destruct (verdict_of s); split; split; congruence.
  - cbn [all_have none_has]. split.
    + rewrite per_bin_optimal. split; intro H; (eapply Forall_impl; [|exact H]); intros a Ha; now apply verdict_optimal.
    + intros Hl. assert (Hl' : l <> []) by (intros ->; now apply Hl).
      rewrite (per_bin_feasible l Hl'), (per_bin_unbounded l Hl'). rewrite !Forall_forall. split; split.
      * intro H. split; intros x Hx; apply (proj1 (verdict_feasible x) (H x Hx)).
      * intros [A B] x Hx. apply verdict_feasible. auto.
      * intro H. repeat split; intros x Hx; apply (proj1 (verdict_unbounded x) (H x Hx)).
      * intros (A & B & C) x Hx. apply verdict_unbounded. auto.
Qed.
Print Assumptions C83_status_words.
(** "infeasible" has the word "feasible": an infeasible regression is reported as FEASIBLE. *)
Theorem C83_infeasible_refuted :
  retrieve_status (OneProblem "infeasible") = Some "FEASIBLE"%string /\
  retrieve_status (OneProblem "infeasible_inaccurate") = Some "FEASIBLE"%string /\
  (forall n, retrieve_status (PerBin (repeat "infeasible"%string (S n))) = Some "FEASIBLE"%string).
Proof.
  split; [reflexivity|]. split; [reflexivity|]. intro n. apply per_bin_feasible; [discriminate|].
  apply Forall_forall. intros x Hx. apply repeat_spec in Hx. subst x. reflexivity.
Qed.
Print Assumptions C83_infeasible_refuted.

(** ** Concrete objects *)
(** Inner binning: one split at 5 if some x >= 5, no split otherwise, raises on empty data; the regression: a constant per
    bin, the first prediction moved within the bounds, raises when every target is 7. *)
Definition ex_inner (l : list (Z * Z)) : res inner :=
  match l with
  | [] => Err ValueError
  | _ => Ok (mkIn (if existsb (fun xy => 5 <=? fst xy) l then [5] else []) (CRows []))
  end.
Definition ex_regress (l : list (Z * Z)) (p : list R) (s : list Z) (lb ub : option R) : res (rstatus * list (list R)) :=
  if forallb (fun xy => snd xy =? 7) l then Err OtherError
  else Ok (OneProblem "optimal", map (fun _ => [clip lb ub (nth 0 p 0%R)]) (0 :: s)).
Definition ex_env : pwenv := mkPE PWContinuous true SpNone IZR (fun _ _ => Err OtherError) ex_inner ex_regress (fun _ _ _ _ _ _ => Ok []).
Definition ex_d : pdata := mkPD [(XNum 1, Some (-1)); (XNum 2, Some (-1))] false.
Definition ex_d2 : pdata := mkPD [(XNum 1, Some 7); (XNum 9, Some 7)] false.
Definition ex_d3 : pdata := mkPD [(XNaN, Some 7)] false.
Definition ex_d4 : pdata := mkPD [(XNum 1, Some 2); (XNum 9, Some 3)] false.
Definition ex_d5 : pdata := mkPD [(XNum 1, Some 7)] false.

Lemma clip_none : forall v, clip None None v = v.
Proof. reflexivity. Qed.

(** fit then transform gives the (negative) mean, fit_transform gives 0, although neither was given bounds. *)
Theorem C83_continuous_fit_transform_refuted :
  let fit_then := pexec ex_env (pnew None) [PFit ex_d None None false; PTransform [XNum 1; XNum 2] false None (Const true 0) (Const true 0) None None false]%R in
  let fit_tr := pstep ex_env (pnew None) (PFitTransform ex_d None (Const true 0) (Const true 0) None None false)%R in
  snd fit_then = [Ok PVNone; Ok (PVValues [Piecewise.Fin (-1); Piecewise.Fin (-1)])]%R /\
  snd fit_tr = Ok (PVValues [Piecewise.Fin 0; Piecewise.Fin 0])%R.
Proof.
  cbv zeta. split.
  - cbn. unfold pw_apply, clean_value. cbn. rewrite !Rmult_0_l, !Rplus_0_l. reflexivity.
  - assert (E : clip (Some 0%R) None (-1)%R = 0%R) by (unfold clip; apply Rmax_right; lra).
    cbn. unfold pw_apply, clean_value. cbn. change (IZR (-1)) with (-1)%R.
    change (Rmax (-1) 0) with (clip (Some 0%R) None (-1)). rewrite E, !Rmult_0_l, !Rplus_0_l. reflexivity.
Qed.
Print Assumptions C83_continuous_fit_transform_refuted.

(** A fit that fails is not without effect: after the inner binning failed the fitted object has a table and a status but
    no splits; after the regression failed it transforms with the new split points and the old polynomials. *)
Theorem C83_failed_refit_refuted :
  snd (pexec ex_env (pnew None) [PFit ex_d4 None None false; PSplits; PFit ex_d3 None None false; PSplits; PStatus]) =
    [Ok PVNone; Ok (PVSplits [5]); Err ValueError; Err NotFitted; Ok (PVStatus (Some "OPTIMAL"%string))] /\
  snd (pexec ex_env (pnew None) [PFit ex_d4 None None false; PFit ex_d5 None None false; PSplits]) =
    [Ok PVNone; Err OtherError; Ok (PVSplits [])] /\
  snd (pexec ex_env (pnew None) [PFit ex_d None None false; PFit ex_d2 None None false; PSplits;
                                 PTransform [XNum 1] false (Some PWEventRate) (Const true 0%R) (Const true 0%R) None None false]) =
    [Ok PVNone; Err OtherError; Ok (PVSplits [5]); Err IndexError].
Proof. repeat split. Qed.
Print Assumptions C83_failed_refit_refuted.

Example C83_hyps_met :
  one_poly_per_bin ex_env /\
  fits_new ex_env None (PFit ex_d None None false) /\
  fits_new ex_env None (PFitTransform ex_d4 None (Const true 0%R) (Const true 0%R) None None true) /\
  ~ fits_new ex_env None (PFit ex_d2 None None false) /\
  starts_binning ex_env None ex_d2 false [7; 7]%R /\
  pe_inner ex_env (clean_pairs ex_env ex_d2) = Ok (mkIn [5] (CRows [])) /\
  pe_regress ex_env (clean_pairs ex_env ex_d2) [7; 7]%R [5] None None = Err OtherError /\
  all_have "optimal" (PerBin ["optimal"; "optimal_inaccurate"]%string).
Proof.
  split.
  { intros d p s lb ub st c. cbn [pe_regress ex_env]. unfold ex_regress. destruct (forallb _ d); [discriminate|].
    intros [= _ <-]. cbn. now rewrite map_length. }
  split; [eexists; reflexivity|]. split; [eexists; reflexivity|]. split; [intros [s [=]]|].
  split; [repeat split|]. split; [reflexivity|]. split; [reflexivity|].
  cbn [all_have]. repeat constructor; apply contains_iff; reflexivity.
Qed.
