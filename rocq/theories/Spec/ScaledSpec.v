(** The divergence of one bin with n non-events and e events, of tn non-events and te events in total. *)
From Coq Require Import ZArith Reals.
From Verif Require Import Model.Core.
Open Scope R_scope.

Definition bin_divergence (d : divergence) (tot bin : Z * Z) : R :=
  let p := IZR (snd bin) / IZR (snd tot) in
  let q := IZR (fst bin) / IZR (fst tot) in
  match d with
  | IV => (p - q) * ln (p / q)
  | JS => (p * ln (p / ((p + q) / 2)) + q * ln (q / ((p + q) / 2))) / 2
  | HELLINGER => (sqrt p - sqrt q) ^ 2 / 2
  | TRIANGULAR => (p - q) ^ 2 / (p + q)
  end.
