(** C93, C94: the texts of doubles in [repr]. *)
From Coq Require Import ZArith List Bool String Ascii Reals.
From Flocq Require Import Core BinarySingleNaN.
From Verif Require Import Outcome Scalar Float64 Ops64 Model Spec ModelS Facts64 ModelDisp ModelFmt FmtSpec FactsText.
Import ListNotations.
Open Scope string_scope.
Open Scope R_scope.

(** C93.  Full statement: the text of a number denotes its value.  False (six digits are written); the text denotes the
    value correctly rounded to six significant decimal digits.  [denotes s v]: read as a decimal number, [s] is [v].
    [nn]: how NaN is written. *)
Theorem C93_rounded_partial : forall (nn : bool) (x : b64), finite64 x -> denotes (text64 nn x) (six_digits (val64 x)).
Proof. exact text_rounded. Qed.
Print Assumptions C93_rounded_partial.
Theorem C93_accuracy_partial : forall (nn : bool) (x : b64), finite64 x ->
  exists v, denotes (text64 nn x) v /\ Rabs (v - val64 x) <= 5 / 1000000 * Rabs (val64 x).
Proof. exact text_accuracy. Qed.
Print Assumptions C93_accuracy_partial.
Theorem C93_determines_refuted : ~ (forall (nn : bool) (x y : b64), finite64 x -> finite64 y -> text64 nn x = text64 nn y -> val64 x = val64 y).
Proof. exact text_determines_witness. Qed.
Print Assumptions C93_determines_refuted.
(** Exactly the numbers with the same six digits have the same text. *)
Theorem C93_same_text : forall (nn : bool) (x y : b64), finite64 x -> finite64 y -> val64 x <> 0 ->
  (text64 nn x = text64 nn y <-> six_digits (val64 x) = six_digits (val64 y)).
Proof. exact text_same. Qed.
Print Assumptions C93_same_text.
(** A decimal number of at most six digits, stored as a double, is shown as written. *)
Theorem C93_as_written : forall (nn : bool) (x : b64) (m k : Z), finite64 x -> (Z.abs m < 10 ^ 6)%Z ->
  bpow radix2 (-1022) <= Rabs (IZR m * bpow radix10 k) -> val64 x = near64 (IZR m * bpow radix10 k) ->
  denotes (text64 nn x) (IZR m * bpow radix10 k).
Proof. exact text_as_written. Qed.
Print Assumptions C93_as_written.
Theorem C93_monotone : forall (nn : bool) (x y : b64), finite64 x -> finite64 y -> val64 x <= val64 y ->
  exists v w, denotes (text64 nn x) v /\ denotes (text64 nn y) w /\ v <= w.
Proof. exact text_monotone. Qed.
Print Assumptions C93_monotone.
Theorem C93_not_finite : forall (nn : bool) (x : b64), ~ finite64 x -> decimal (text64 nn x) = None.
Proof. exact text_not_finite. Qed.
Print Assumptions C93_not_finite.
Theorem C93_dense : forall (nn : bool) (c : cfg) (n : nat) (x : dd b64) f g h, shows c n x f g h -> finite64 f ->
  exists t, dd_repr (text64 nn) x = Ok (t ++ "hj") /\ denotes t (six_digits (val64 f)).
Proof. exact dense_text. Qed.
Print Assumptions C93_dense.

(** C94.  Full statement: the text of a sparse number determines its names.  False if names contain blanks.
    [read_sparse s]: the text of the value and the names with the texts of their derivatives. *)
Theorem C94_reads_partial : forall (M : libm) (nn : bool) (y : ss b64), Forall (fun e => free_of " " (fst e)) (s_d y) ->
  read_sparse (ss_repr (b64ops M) (text64 nn) y) = Some (text64 nn (s_f y), map (fun e => (fst e, text64 nn (snd e))) (s_d y)).
Proof. exact sparse_text_reads. Qed.
Print Assumptions C94_reads_partial.
Theorem C94_determines_partial : forall (M : libm) (nn : bool) (y y' : ss b64),
  Forall (fun e => free_of " " (fst e)) (s_d y) -> Forall (fun e => free_of " " (fst e)) (s_d y') ->
  ss_repr (b64ops M) (text64 nn) y = ss_repr (b64ops M) (text64 nn) y' ->
  text64 nn (s_f y) = text64 nn (s_f y') /\ map fst (s_d y) = map fst (s_d y') /\
  map (fun e => text64 nn (snd e)) (s_d y) = map (fun e => text64 nn (snd e)) (s_d y').
Proof. exact sparse_text_same. Qed.
Print Assumptions C94_determines_partial.
Theorem C94_determines_refuted : ~ (forall (M : libm) (nn : bool) (y y' : ss b64),
  ss_repr (b64ops M) (text64 nn) y = ss_repr (b64ops M) (text64 nn) y' -> map fst (s_d y) = map fst (s_d y')).
Proof. exact sparse_text_ambiguous. Qed.
Print Assumptions C94_determines_refuted.

(** Cases.  What [printf("%.6g")] prints; carries, the switch between the two styles, ties. *)
Definition quot (a b : Z) : b64 := b64_div (b64_of_Z a) (b64_of_Z b).
Example C93_case : map (text64 true) [quot 1 3; quot (-1) 10; quot 1 100000; quot 1 10000; b64_of_Z 1000000; b64_of_Z 999999;
    quot 9999995 10; quot 123456789 1000; quot 5 2; quot 1000005 10; quot 1000015 10; quot 9999996 1000000; b64_of_Z 0; b64_neg (b64_of_Z 0);
    quot (-1) 0; quot 0 0] =
  ["0.333333"; "-0.1"; "1e-05"; "0.0001"; "1e+06"; "999999"; "1e+06"; "123457"; "2.5"; "100000"; "100002"; "10"; "0"; "-0"; "-inf"; "-nan"].
Proof. vm_compute. reflexivity. Qed.
Example C93_case_extreme : map (text64 true) [b64_of_Z (10 ^ 300); quot 1 (10 ^ 300); (B754_finite false 1 (-1074) (eq_refl : SpecFloat.bounded prec64 emax64 1 (-1074) = true) : b64)] =
  ["1e+300"; "1e-300"; "4.94066e-324"].
Proof. vm_compute. reflexivity. Qed.
Example C93_case_reads : map decimal ["0.333333"; "-0.1"; "1e-05"; "123457"; "4.94066e-324"; "inf"; "nan"; ""; "1."; "1e5"] =
  [Some (333333, -6); Some (-1, -1); Some (1, -5); Some (123457, 0); Some (494066, -329); None; None; None; None; None]%Z.
Proof. vm_compute. reflexivity. Qed.
Example C94_case : let y := mks (quot 1 3) [("x", quot (-1) 2); ("y", quot 1 0); ("z", b64_neg (b64_of_Z 0))] in
  ss_repr (b64ops no_libm) (text64 false) y = "0.333333 -0.5*dx +inf*dy +-0*dz" /\
  read_sparse (ss_repr (b64ops no_libm) (text64 false) y) = Some ("0.333333", [("x", "-0.5"); ("y", "inf"); ("z", "-0")]).
Proof. split; vm_compute; reflexivity. Qed.
