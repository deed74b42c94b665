(** scorecard/plots.py: plot_auc_roc, plot_cap and plot_ks, on the pyplot state they share.
    A figure is the list of curves handed to matplotlib; texts, colours and axis labels are not modelled. Scores are integers (finite
    floats have a common multiple; only their order and their place on the axis matter), targets are integers. *)
From Coq Require Import List ZArith QArith Bool Arith.
From Verif Require Import Model.Arr.
Import ListNotations.
Open Scope nat_scope.

(** numpy: a[idx], cumsum, division of an array by a number (None: nan or infinity) *)
Definition take {A} (d : A) (l : list A) (idx : list nat) : list A := map (fun i => nth i l d) idx.
Fixpoint cumsum (acc : Z) (l : list Z) : list Z := match l with [] => [] | x :: r => (acc + x)%Z :: cumsum (acc + x)%Z r end.
Definition frac (a b : Z) : Q := (inject_Z a / inject_Z b)%Q.
Definition ofrac (a b : Z) : option Q := if (b =? 0)%Z then None else Some (frac a b).

(** sklearn.metrics.roc_auc_score (Mann-Whitney form): for each pair of an event and a non-event 2 if the event has the larger score, 1
    if they are equal, 0 otherwise; ValueError when only one class is present. *)
Definition pair_score (a b : Z) : Z := if (b <? a)%Z then 2%Z else if (a =? b)%Z then 1%Z else 0%Z.
Definition scores_of (cls : Z) (y p : list Z) : list Z := map snd (filter (fun r => (fst r =? cls)%Z) (combine y p)).
Definition roc_auc (y p : list Z) : res Q :=
  let e := scores_of 1 y p in let n := scores_of 0 y p in
  match e, n with
  | [], _ | _, [] => Err ValueError
  | _, _ => Ok (frac (zsum (map (fun a => zsum (map (pair_score a) n)) e)) (2 * (Z.of_nat (length e) * Z.of_nat (length n))))
  end.

(** The curves: x and y coordinates, None where numpy gives nan or an infinity. [LModel]: with the number in its label. [LKs]: the vertical
    line (abscissa, from, to) with the number in the text. *)
Inductive artist :=
| LRandom (pts : list (Q * Q)) | LPerfect (pts : list (Q * Q)) | LModel (pts : list (Q * option Q)) (value : Q)
| LEvents (pts : list (Z * option Q)) | LNonevents (pts : list (Z * option Q)) | LKs (x : Z) (lo hi : option Q) (ks : option Q).
Definition count (y : list Z) : Z := Z.of_nat (length y).

Section Plots.
(** numpy's argsort (quicksort, not stable in general), sklearn's roc_curve *)
Variable argsort : list Z -> list nat.
Variable roc_curve : list Z -> list Z -> list (Q * Q).

(** 85-99 *)
Definition draw_roc (y p : list Z) : res (list artist) :=
  rbind (roc_auc y p) (fun auc =>
  let c := roc_curve y p in
  Ok [LRandom (map (fun t => (fst t, fst t)) c); LModel (map (fun t => (fst t, Some (snd t))) c) auc]).
(** 144-170 *)
Definition draw_cap (y p : list Z) : res (list artist) :=
  let n := count y in let n_event := zsum y in
  let yy := take 0%Z y (rev (argsort p)) in
  let p_event := map (fun c => ofrac c n_event) (0%Z :: cumsum 0 yy) in
  let p_population := map (fun i => frac (Z.of_nat i) n) (seq 0 (S (length y))) in
  rbind (roc_auc y p) (fun auroc =>
  Ok [LRandom [(0, 0); (1, 1)]%Q; LPerfect [((0, 0)); (frac n_event n, 1); (1, 1)]%Q; LModel (combine p_population p_event) (auroc * 2 - 1)%Q]).
(** np.argmax: the first index of the largest value *)
Fixpoint argmax (best : Q) (at_ i : nat) (l : list Q) : nat :=
  match l with [] => at_ | x :: r => if Qle_bool x best then argmax best at_ (S i) r else argmax x i (S i) r end.
Definition np_argmax (l : list Q) : nat := match l with [] => 0 | x :: r => argmax x 0 1 r end.
(** 215-257. With one class only, p_diff is nan or -inf everywhere: the maximum is the first entry, and the number shown is not finite. *)
Definition draw_ks (y p : list Z) : res (list artist) :=
  let n_event := zsum y in let n_nonevent := (count y - n_event)%Z in
  let idx := argsort p in
  let yy := take 0%Z y idx in let pp := take 0%Z p idx in
  let cum_event := cumsum 0 yy in
  let cum_population := map Z.of_nat (seq 0 (length y)) in
  let cum_nonevent := map2 Z.sub cum_population cum_event in
  let p_event := map (fun c => ofrac c n_event) cum_event in
  let p_nonevent := map (fun c => ofrac c n_nonevent) cum_nonevent in
  let curves := [LEvents (combine pp p_event); LNonevents (combine pp p_nonevent)] in
  if (n_event =? 0)%Z || (n_nonevent =? 0)%Z then Ok (curves ++ [LKs (nth 0 pp 0%Z) (nth 0 p_event None) (nth 0 p_nonevent None) None]) else
  let p_diff := map2 (fun a b => (frac a n_nonevent - frac b n_event)%Q) cum_nonevent cum_event in
  let i := np_argmax p_diff in
  Ok (curves ++ [LKs (nth i pp 0%Z) (nth i p_event None) (nth i p_nonevent None) (nth_error p_diff i)]).

(** One call: 18-24 (lengths and emptiness), 27-48 (types as flags; savefig needs fname) before anything is drawn. *)
Inductive which := RocAuc | Cap | Ks.
Record pcall := mkCall { c_which : which; c_y : list Z; c_p : list Z; c_types_ok : bool; c_savefig : bool; c_fname : option Z }.
Definition draw (c : pcall) : res (list artist) :=
  if negb (length (c_y c) =? length (c_p c)) || (length (c_y c) =? 0) then Err ValueError else
  if negb (c_types_ok c) then Err TypeError else
  if c_savefig c && (match c_fname c with None => true | _ => false end) then Err ValueError else
  match c_which c with RocAuc => draw_roc | Cap => draw_cap | Ks => draw_ks end (c_y c) (c_p c).

(** pyplot's current figure and the files written. plt.close() follows savefig; nothing is closed otherwise (104-107, 175-178, 260-263). *)
Definition plt : Type := list artist * (Z -> option (list artist)).
Definition call (s : plt) (c : pcall) : plt * res unit :=
  match draw c with
  | Err e => (s, Err e)
  | Ok a =>
      let fig := fst s ++ a in
      match c_savefig c, c_fname c with
      | true, Some f => (([], fun g => if (g =? f)%Z then Some fig else snd s g), Ok tt)
      | _, _ => ((fig, snd s), Ok tt)
      end
  end.
Fixpoint calls (s : plt) (h : list pcall) : plt := match h with [] => s | c :: r => calls (fst (call s c)) r end.
End Plots.
