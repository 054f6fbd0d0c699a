(** Conformance and non-vacuity: the model, run on the test vector of tests/test_hybrid.c. *)
From Verif Require Import Base SpongePure Tab DilReduce DilPoly DilVec DilSign KatVectors.


Definition same_bytes (a b : list Z) : bool := (zlen a =? zlen b) && forallb (fun '(x, y) => x =? y) (combine a b).
Definition check_keypair (r : outcome (option (list Z * list Z))) : bool :=
  match r with
  | Ret (Some (p, s)) => same_bytes p (slice kat_pk 32 1312) && same_bytes s (slice kat_sk 64 2560)
  | _ => false
  end.
(** C28's hypotheses are met: with this key a signature exists (here the first attempt is
    rejected and the second one accepted) and verifies. *)
Definition check_sign (r1 r2 : outcome (option (list Z))) : bool :=
  match r1, r2 with
  | Ret None, Ret (Some sig) => match sign_verify 20 sig 2420 [2] (slice kat_pk 32 1312) with Ret (Some r) => r =? 0 | _ => false end
  | _, _ => false
  end.
(** These are tests of the model, not theorems: the build stops if one evaluates to anything
    but [true].  (They are run here rather than stated as lemmas because re-running them
    without the virtual machine, as coqchk does, takes hours.) *)
Ltac expect_true b := let r := eval vm_compute in b in lazymatch r with true => idtac end.
Goal True. expect_true (check_keypair (keypair_seed 20 (slice kat_seed 32 32))). exact I. Qed.
Goal True. expect_true (check_sign (sign_signature 1 [2] (slice kat_sk 64 2560)) (sign_signature 20 [2] (slice kat_sk 64 2560))). exact I. Qed.
