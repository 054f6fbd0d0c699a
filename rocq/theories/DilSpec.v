(** Specification of the Dilithium arithmetic, written from FIPS 204 / the Dilithium
    round-3 document and independent of the code model. *)
From Coq Require Import ZArith List Lia Bool.
Import ListNotations.
Local Open Scope Z_scope.

Module Spec.
Definition q : Z := 8380417.
Definition gamma2 : Z := (q - 1) / 88.
(** congruence modulo q *)
Definition cong (a b : Z) : Prop := exists k, a = b + k * q.
(** centred residue: the r' = r (mod m) with -m/2 < r' <= m/2 *)
Definition mods (r m : Z) : Z := let t := r mod m in if m <? 2 * t then t - m else t.

(** FIPS 204 Algorithm 35 (Power2Round), d = 13 *)
Definition Power2Round (r : Z) : Z * Z :=
  let rp := r mod q in let r0 := mods rp (2 ^ 13) in ((rp - r0) / 2 ^ 13, r0).
(** FIPS 204 Algorithm 36 (Decompose) *)
Definition Decompose (r : Z) : Z * Z :=
  let rp := r mod q in
  let r0 := mods rp (2 * gamma2) in
  if rp - r0 =? q - 1 then (0, r0 - 1) else ((rp - r0) / (2 * gamma2), r0).
Definition HighBits (r : Z) : Z := fst (Decompose r).
Definition LowBits (r : Z) : Z := snd (Decompose r).
(** FIPS 204 Algorithm 39 (MakeHint) and 40 (UseHint) *)
Definition MakeHint (z r : Z) : bool := negb (HighBits r =? HighBits (r + z)).
Definition UseHint (h : bool) (r : Z) : Z :=
  let '(r1, r0) := Decompose r in
  if h && (0 <? r0) then (r1 + 1) mod 44
  else if h && (r0 <=? 0) then (r1 - 1) mod 44
  else r1.

(** Sum of f 0 .. f (n-1) *)
Fixpoint sum (n : nat) (f : nat -> Z) : Z := match n with O => 0 | S n => sum n f + f n end.
(** coefficient k of a*b modulo X^256 + 1 *)
Definition negacyclic (a b : list Z) (k : nat) : Z :=
  sum 256 (fun i => if (i <=? k)%nat then nth i a 0 * nth (k - i) b 0
                    else - (nth i a 0 * nth (256 + k - i) b 0)).
(** value of the polynomial at x *)
Definition eval (a : list Z) (x : Z) : Z := sum 256 (fun j => nth j a 0 * x ^ Z.of_nat j).
(** reversal of the 8 bits of i *)
Definition brv8 (i : Z) : Z :=
  fold_left (fun acc b => 2 * acc + Z.b2z (Z.testbit i b)) [0; 1; 2; 3; 4; 5; 6; 7] 0.
Definition poly_within (B : Z) (a : list Z) : Prop := length a = 256%nat /\ Forall (fun x => - B <= x <= B) a.
End Spec.
