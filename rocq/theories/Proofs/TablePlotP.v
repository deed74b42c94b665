(** Figures of the one-dimensional tables: the data of the figure, row by row. *)
From Coq Require Import List ZArith QArith Bool Arith Lia String Reals.
From Verif Require Import Model.Arr Model.Core Model.Metrics Model.Label Model.TablePlot Spec.TablePlotSpec.
Import ListNotations.
Open Scope list_scope.
Open Scope nat_scope.

Lemma firstn_seq {A} (d : A) n l : n <= List.length l -> firstn n l = map (fun r => nth r l d) (seq 0 n).
Proof.
  revert l. induction n as [|n IH]; intros [|x l] H; cbn [List.length] in H; try lia; [reflexivity|reflexivity|].
  cbn [firstn seq map nth]. f_equal. rewrite IH by lia. rewrite <- seq_shift, map_map. reflexivity.
Qed.
Lemma list_seq {A} (d : A) l : l = map (fun r => nth r l d) (seq 0 (List.length l)).
Proof. rewrite <- firstn_seq by lia. now rewrite firstn_all. Qed.
Lemma skipn_last {A} (d : A) l : l <> [] -> skipn (List.length l - 1) l = [nth (List.length l - 1) l d].
Proof.
  intros H. destruct (exists_last H) as (r & x & ->). rewrite app_length. cbn [List.length]. replace (List.length r + 1 - 1) with (List.length r) by lia.
  rewrite skipn_app, skipn_all, Nat.sub_diag, app_nth2 by lia. rewrite Nat.sub_diag. reflexivity.
Qed.
Lemma pops_eq {A} n : forall (l : list A), n + 1 <= List.length l -> pops n l = Ok (firstn (List.length l - n - 1) l ++ skipn (List.length l - 1) l).
Proof.
  induction n as [|n IH]; intros l H; cbn [pops].
  - rewrite Nat.sub_0_r. now rewrite firstn_skipn.
  - unfold pop2. replace (List.length l <? 2) with false by (symmetry; apply Nat.ltb_ge; lia). cbn [rbind].
    assert (L : List.length (firstn (List.length l - 2) l ++ skipn (List.length l - 1) l) = List.length l - 1).
    { rewrite app_length, firstn_length, skipn_length. lia. }
    rewrite IH by lia. rewrite L. f_equal. f_equal.
    + rewrite firstn_app, firstn_firstn, firstn_length. replace (List.length l - 1 - n - 1 - Nat.min (List.length l - 2) (List.length l)) with 0 by lia.
      rewrite firstn_O, app_nil_r. f_equal. lia.
    + rewrite skipn_app, firstn_length, skipn_all2 by (rewrite firstn_length; lia). replace (List.length l - 1 - 1 - Nat.min (List.length l - 2) (List.length l)) with 0 by lia. reflexivity.
Qed.

(** the rows to show, without the table *)
Definition rows_shown (nb S : nat) (sp ms : bool) : list nat := seq 0 nb ++ (if sp then seq nb S else []) ++ (if ms then [nb + S] else []).
Lemma rows_shown_length nb S (sp ms : bool) : List.length (rows_shown nb S sp ms) = nb + (if sp then S else 0) + (if ms then 1 else 0).
Proof. unfold rows_shown. rewrite !app_length, seq_length. destruct sp, ms; cbn [List.length]; rewrite ?seq_length; lia. Qed.
Lemma rows_shown_lt nb S sp ms r : In r (rows_shown nb S sp ms) -> r < nb + S + 1.
Proof.
  unfold rows_shown. rewrite !in_app_iff, in_seq. intros [H|[H|H]]; [lia| |].
  - destruct sp; [apply in_seq in H; lia|destruct H].
  - destruct ms; [destruct H as [<-|[]]; lia|destruct H].
Qed.
Lemma hide_eq {A} (d : A) nb S sp ms (l : list A) : List.length l = nb + S + 1 -> hide S sp ms l = Ok (map (fun r => nth r l d) (rows_shown nb S sp ms)).
Proof.
  intros L. unfold hide, rows_shown.
  assert (F : l = map (fun r => nth r l d) (seq 0 (nb + S) ++ [nb + S])) by (change [nb + S] with (seq (0 + (nb + S)) 1); rewrite <- seq_app, <- L; apply list_seq).
  assert (G : firstn nb l ++ skipn (nb + S) l = map (fun r => nth r l d) (seq 0 nb ++ [nb + S])).
  { rewrite map_app, <- firstn_seq by lia. cbn [map]. f_equal. pose proof (skipn_last d l) as H. replace (List.length l - 1) with (nb + S) in H by lia.
    apply H. intros ->. cbn [List.length] in L. lia. }
  assert (P1 : forall k : list A, k <> [] -> pop1 k = Ok (firstn (List.length k - 1) k)).
  { intros k Hk. unfold pop1. destruct k as [|x k]; [contradiction|]. reflexivity. }
  destruct sp; cbn [rbind].
  - destruct ms.
    + f_equal. rewrite F at 1. now rewrite seq_app, <- app_assoc.
    + rewrite P1 by (intros ->; cbn [List.length] in L; lia). rewrite app_nil_r. f_equal. rewrite L, <- seq_app, <- firstn_seq by lia. f_equal. lia.
  - rewrite pops_eq by lia. cbn [rbind]. replace (List.length l - S - 1) with nb by lia. replace (List.length l - 1) with (nb + S) by lia. rewrite G. destruct ms.
    + reflexivity.
    + rewrite P1 by (destruct nb; discriminate). rewrite !map_app, !app_length, !map_length, seq_length. cbn [List.length app map]. rewrite app_nil_r. f_equal.
      rewrite firstn_app. rewrite map_length, seq_length. replace (nb + 1 - 1) with nb by lia. rewrite Nat.sub_diag, firstn_O, app_nil_r. rewrite firstn_all2 by (rewrite map_length, seq_length; lia). reflexivity.
Qed.
Lemma all_res_ok {A B} (g : A -> res B) (h : A -> B) l : (forall x, In x l -> g x = Ok (h x)) -> Lifecycle.all_res (map g l) = Ok (map h l).
Proof.
  induction l as [|x l IH]; intros H; cbn [map Lifecycle.all_res]; [reflexivity|]. rewrite (H x (or_introl eq_refl)), IH; [reflexivity|]. intros y Hy. apply H. now right.
Qed.

(** stacked bars *)
Definition sum_to (series : list (list Z)) (j row : nat) : Z := fold_right Z.add 0%Z (map (fun i => nth row (nth i series []) 0%Z) (seq 0 j)).
Lemma stack_eq (rows : list nat) : forall series (base : nat -> Z),
  stack (map base rows) (map (fun s => map (fun r => nth r s 0%Z) rows) series) =
  map (fun j => map (fun r => ((base r + sum_to series j r)%Z, nth r (nth j series []) 0%Z)) rows) (seq 0 (List.length series)).
Proof.
  induction series as [|s series IH]; intros base; [reflexivity|]. cbn [map stack List.length seq]. f_equal.
  - clear. induction rows as [|r rows IH]; [reflexivity|]. cbn [map combine]. rewrite IH. f_equal. f_equal. unfold sum_to. cbn. lia.
  - replace (map2 Z.add (map base rows) (map (fun r => nth r s 0%Z) rows)) with (map (fun r => (base r + nth r s 0)%Z) rows).
    2:{ clear. induction rows as [|r rows IH]; [reflexivity|]. cbn [map map2]. now rewrite IH. }
    rewrite IH, <- seq_shift, map_map. apply map_ext. intros j. apply map_ext. intros r. f_equal. unfold sum_to. cbn [seq map nth]. rewrite <- seq_shift, map_map. cbn [fold_right]. lia.
Qed.
Lemma nth_error_shown_lt nb S sp ms p : p < nb -> nth_error (rows_shown nb S sp ms) p = Some p.
Proof. intros H. unfold rows_shown. rewrite nth_error_app1 by (rewrite seq_length; lia). rewrite (nth_error_nth' _ 0) by (rewrite seq_length; lia). now rewrite seq_nth. Qed.
Lemma nth_error_shown_all nb S (ms : bool) p : (p < nb + S + (if ms then 1 else 0))%nat -> nth_error (rows_shown nb S true ms) p = Some p.
Proof.
  intros H. unfold rows_shown. rewrite app_assoc, <- seq_app. destruct (Nat.lt_ge_cases p (nb + S)) as [L|L].
  - rewrite nth_error_app1 by (rewrite seq_length; lia). rewrite (nth_error_nth' _ 0) by (rewrite seq_length; lia). now rewrite seq_nth.
  - destruct ms; [|lia]. rewrite nth_error_app2 by (rewrite seq_length; lia). rewrite seq_length. replace (p - (nb + S)) with 0 by lia. cbn. f_equal. lia.
Qed.
Lemma nth_error_shown_last nb S : nth_error (rows_shown nb S false true) nb = Some (nb + S).
Proof. unfold rows_shown. rewrite nth_error_app2 by (rewrite seq_length; lia). rewrite seq_length, Nat.sub_diag. reflexivity. Qed.

(** horizontal spans of style "actual" *)
Lemma spans_length : forall l, List.length (spans l) = List.length l - 1.
Proof. induction l as [|a [|b r] IH]; [reflexivity|reflexivity|]. cbn [spans List.length] in *. rewrite IH. lia. Qed.
Lemma spans_nth : forall sp lo hi i, i < S (List.length sp) ->
  nth_error (spans (lo :: sp ++ [hi])) i = Some (match i with O => lo | S k => nth k sp 0%Z end, if i <? List.length sp then nth i sp 0%Z else hi).
Proof.
  induction sp as [|s sp IH]; intros lo hi i Hi.
  - cbn [List.length] in Hi. replace i with 0 by lia. reflexivity.
  - destruct i as [|i]; [reflexivity|]. cbn [List.length] in Hi.
    change (spans (lo :: (s :: sp) ++ [hi])) with ((lo, s) :: spans (s :: sp ++ [hi])). cbn [nth_error]. rewrite (IH s hi i) by lia.
    reflexivity.
Qed.
Lemma all_res_inv {A} : forall (l : list (res A)) r, Lifecycle.all_res l = Ok r -> l = map Ok r.
Proof.
  induction l as [|[a|e] l IH]; intros r H; cbn [Lifecycle.all_res] in H; [injection H as <-; reflexivity| |discriminate].
  destruct (Lifecycle.all_res l) as [t|]; [|discriminate]. injection H as <-. cbn [map]. now rewrite <- (IH t eq_refl).
Qed.
