(** Truncated integer objectives approximate the real ones. *)
From Coq Require Import List ZArith Reals Lra Lia.
From Verif Require Import Model.Arr Model.Core Model.Metrics Model.Scaled Spec.ScaledSpec.
Import ListNotations.
Open Scope R_scope.

Lemma trunc_close x : IZR (trunc x) - 1 <= x <= IZR (trunc x) + 1.
Proof.
  unfold trunc. destruct (Rle_dec 0 x) as [H|H].
  - destruct (base_Int_part x). lra.
  - destruct (base_Int_part (- x)). rewrite opp_IZR. lra.
Qed.
Section G.
Context {A : Type} (f : A -> R) (g : A -> Z) (M : Z).
Hypothesis Hg : forall x, g x = trunc (f x * IZR M).
Lemma trunc_sum l : Rabs (rsum (map f l) * IZR M - IZR (zsum (map g l))) <= INR (length l).
Proof.
  induction l as [|a l IH]; [cbn; unfold Rminus; rewrite Rmult_0_l, Rplus_opp_r, Rabs_R0; lra|].
  cbn [map rsum zsum length]. rewrite plus_IZR, S_INR, Hg. pose proof (trunc_close (f a * IZR M)) as T.
  apply Rabs_le. revert IH. unfold Rabs. destruct (Rcase_abs _); intros; lra.
Qed.
(** a larger truncated total means an almost larger real total *)
Lemma trunc_sum_le l l' : (0 < M)%Z -> (zsum (map g l) <= zsum (map g l'))%Z ->
  rsum (map f l) <= rsum (map f l') + INR (length l + length l') / IZR M.
Proof.
  intros HM H. apply IZR_le in H. pose proof (trunc_sum l) as A1. pose proof (trunc_sum l') as A2.
  apply IZR_lt in HM. rewrite plus_INR.
  assert (rsum (map f l) * IZR M <= rsum (map f l') * IZR M + (INR (length l) + INR (length l'))).
  { revert A1 A2. unfold Rabs. destruct (Rcase_abs _), (Rcase_abs _); intros; lra. }
  apply (Rmult_le_reg_r (IZR M)); [exact HM|]. rewrite Rmult_plus_distr_r. unfold Rdiv. rewrite Rmult_assoc, Rinv_l by lra. lra.
Qed.
End G.

Lemma xlogy_mul x y : xlogy x y = x * ln y.
Proof. unfold xlogy. destruct (Req_EM_T x 0) as [->|]; [ring|reflexivity]. Qed.
Lemma div_of_spec d tot r : div_of d tot r = bin_divergence d tot r.
Proof.
  unfold div_of, bin_divergence. destruct d.
  - apply xlogy_mul.
  - unfold js1, kl1. rewrite !xlogy_mul. replace (1 / 2 * (IZR (snd r) / IZR (snd tot) + IZR (fst r) / IZR (fst tot))) with
      ((IZR (snd r) / IZR (snd tot) + IZR (fst r) / IZR (fst tot)) / 2) by lra. lra.
  - unfold hellinger1. lra.
  - reflexivity.
Qed.
Lemma scaled_spec M d tot r : scaled_div M d tot r = trunc (bin_divergence d tot r * IZR M).
Proof. unfold scaled_div. now rewrite div_of_spec. Qed.
