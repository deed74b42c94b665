(** Vocabulary for C73: reading numbers and interval labels back. *)
From Coq Require Import List ZArith Bool Ascii String.
From Verif Require Import Model.Arr Model.Core Spec.CoreSpec Spec.PrebinSpec.
Import ListNotations.
Open Scope string_scope.
Open Scope Z_scope.

Definition digit_value (c : ascii) : option Z :=
  let n := nat_of_ascii c in if (Nat.leb 48 n && Nat.leb n 57)%bool then Some (Z.of_nat (n - 48)) else None.
(** digits after the point: value read so far and number of digits *)
Fixpoint read_frac (acc : Z) (k : nat) (s : string) : option (Z * nat) :=
  match s with
  | "" => Some (acc, k)
  | String c r => match digit_value c with Some v => read_frac (10 * acc + v) (S k) r | None => None end
  end.
Fixpoint read_unsigned (acc : Z) (s : string) : option (Z * nat) :=
  match s with
  | "" => Some (acc, 0%nat)
  | String c r => match digit_value c with
                  | Some v => read_unsigned (10 * acc + v) r
                  | None => if Ascii.eqb c "." then read_frac acc 0 r else None
                  end
  end.
(** A number text: (is there a minus sign, all its digits as an integer, number of digits after the point). *)
Definition read_number (s : string) : option (bool * Z * nat) :=
  match s with
  | String c r => if Ascii.eqb c "-" then option_map (fun p => (true, fst p, snd p)) (read_unsigned 0 r)
                  else option_map (fun p => (false, fst p, snd p)) (read_unsigned 0 s)
  | "" => None
  end.
(** [s] shows [v] with [d] digits: the minus sign exactly for negative values, the digits those of the nearest decimal. *)
Definition shows (d : nat) (U v : Z) (s : string) : Prop :=
  exists q, read_number s = Some (v <? 0, q, d) /\ rounds_to U v ((if v <? 0 then - q else q) * U).
(** The label of an interval from its two texts; the lower end is open exactly for -inf. *)
Definition interval_label (open : bool) (lo hi : string) : string := (if open then "(" else "[") ++ lo ++ ", " ++ hi ++ ")".
(** Two values are printed alike. *)
Definition alike (U a b : Z) : Prop := (a < 0 <-> b < 0) /\ exists r, rounds_to U a r /\ rounds_to U b r.
