(** The text of the bins: binning/binning_statistics.py:63-77 (bin_str_format), 573-586 (the Bin column), transformations.py:153-173
    (metric="bins"). A split is an integer in units of 1/u with u = U * 10^d: [d] is show_digits, U units make one in the last shown
    digit. Python's "{:.df}" rounds the exact value to the nearest decimal, ties to even. Simplification: a split -0.0 (printed "-0.00")
    is not distinguished from 0.0. *)
From Coq Require Import List ZArith Bool Ascii String.
From Verif Require Import Model.Arr Model.Core Model.Prebin.
Import ListNotations.
Open Scope string_scope.
Open Scope Z_scope.

Definition digit (z : Z) : string := String (ascii_of_nat (48 + Z.to_nat z)) "".
(** decimal digits of a non-negative integer, without leading zeros *)
Fixpoint show_int_f (fuel : nat) (n : Z) : string :=
  match fuel with O => "" | S f => if n <? 10 then digit n else show_int_f f (n / 10) ++ digit (n mod 10) end.
Definition show_int (n : Z) : string := show_int_f (S (Z.to_nat (Z.log2 n))) n.
(** exactly [d] digits *)
Fixpoint show_fixed (d : nat) (n : Z) : string := match d with O => "" | S k => show_fixed k (n / 10) ++ digit (n mod 10) end.
(** "{:.df}".format(v) *)
Definition fmt (d : nat) (U v : Z) : string :=
  let q := Z.abs (round_to U v) / U in
  (if v <? 0 then "-" else "") ++ show_int (q / 10 ^ Z.of_nat d) ++
  match d with O => "" | _ => "." ++ show_fixed d (q mod 10 ^ Z.of_nat d) end.

Inductive edge := NegInf | Fin (v : Z) | PosInf.
Definition edge_text (d : nat) (U : Z) (e : edge) : string := match e with NegInf => "-inf" | PosInf => "inf" | Fin v => fmt d U v end.
Definition isinf (e : edge) : bool := match e with Fin _ => false | _ => true end.
(** binning_statistics.py:63-77 *)
Fixpoint bin_str_format (d : nat) (U : Z) (bins : list edge) : list string :=
  match bins with
  | a :: ((b :: _) as r) => ((if isinf a then "(" else "[") ++ edge_text d U a ++ ", " ++ edge_text d U b ++ ")") :: bin_str_format d U r
  | _ => []
  end.
(** np.concatenate([[-np.inf], splits, [np.inf]]) *)
Definition bin_labels (d : nat) (U : Z) (splits : list Z) : list string := bin_str_format d U (NegInf :: map Fin splits ++ [PosInf]).
(** 581-584: the labels of the special and missing rows; [key] is the text of a key of the special_codes dict *)
Definition row_labels (key : Z -> string) (sp : special) (d : nat) (U : Z) (splits : list Z) : list string :=
  (bin_labels d U splits ++ match sp with SpDict l => map (fun kv => key (fst kv)) l | _ => ["Special"] end ++ ["Missing"])%list.
(** transform(metric="bins"), numerical variable *)
Definition transform_bins (key : Z -> string) (sp : special) (d : nat) (U : Z) (splits : list Z) (ms mm : marg string) (x : xval) : res string :=
  transform1_num splits sp MBins ms mm (row_labels key sp d U splits) "unknown" x.
