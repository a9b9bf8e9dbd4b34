(** The checks of the data in PeriodData.v, by computation. *)
From Verif Require Import Base Random PeriodPrime PeriodLinear PeriodData PeriodProofs.
Open Scope N_scope.

Lemma primes_certified : match certified [2] primes with
  | Some l => forallb (fun q => existsb (N.eqb q) l) (chain_primes levels_xs256) = true
  | None => False
  end.
Proof. vm_compute. reflexivity. Qed.

Lemma basis_x64 : basis_ok 32 (Xoroshiro2 26 9 13) poly_x64 combs_x64 = true.
Proof. vm_compute. reflexivity. Qed.
Lemma chain_x64 : chain_ok 32 poly_x64 levels_x64 = true.
Proof. vm_compute. reflexivity. Qed.

Lemma basis_xr128 : basis_ok 64 (Xoroshiro2 24 16 37) poly_xr128 combs_xr128 = true.
Proof. vm_compute. reflexivity. Qed.
Lemma chain_xr128 : chain_ok 64 poly_xr128 levels_xr128 = true.
Proof. vm_compute. reflexivity. Qed.

Lemma basis_xs128 : basis_ok 32 (Xoshiro4 9 11) poly_xs128 combs_xs128 = true.
Proof. vm_compute. reflexivity. Qed.
Lemma chain_xs128 : chain_ok 64 poly_xs128 levels_xs128 = true.
Proof. vm_compute. reflexivity. Qed.

Lemma basis_xs256 : basis_ok 64 (Xoshiro4 17 45) poly_xs256 combs_xs256 = true.
Proof. vm_compute. reflexivity. Qed.
Lemma chain_xs256 : chain_ok 128 poly_xs256 levels_xs256 = true.
Proof. vm_compute. reflexivity. Qed.
