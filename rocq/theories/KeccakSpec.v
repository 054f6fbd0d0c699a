(** FIPS 202 (SHA-3 standard), written at bit level from the standard, independent of
    the code.  Section numbers refer to FIPS PUB 202. *)
From Coq Require Import ZArith List Bool.
Import ListNotations.
Local Open Scope nat_scope.

(** ** 3.1 State: b = 1600, w = 64, l = 6 *)
Definition sarray := nat -> nat -> nat -> bool.                    (* A[x,y,z] *)
(** 3.1.2 strings to state arrays: A[x,y,z] = S[w(5y+x)+z] *)
Definition to_array (S : list bool) : sarray := fun x y z => nth (64 * (5 * y + x) + z) S false.
(** 3.1.3 state arrays to strings *)
Definition to_string (A : sarray) : list bool :=
  flat_map (fun y => flat_map (fun x => map (fun z => A x y z) (seq 0 64)) (seq 0 5)) (seq 0 5).

(** ** 3.2 Step mappings *)
(** 3.2.1 theta *)
Definition theta (A : sarray) : sarray :=
  let C x z := xorb (xorb (xorb (xorb (A x 0 z) (A x 1 z)) (A x 2 z)) (A x 3 z)) (A x 4 z) in
  let D x z := xorb (C ((x + 4) mod 5) z) (C ((x + 1) mod 5) ((z + 63) mod 64)) in
  fun x y z => xorb (A x y z) (D x z).

(** 3.2.2 rho: offsets generated by the walk (x,y) <- (y, (2x+3y) mod 5) *)
Fixpoint rho_walk (n t x y : nat) : list (nat * nat * nat) :=
  match n with
  | O => []
  | S n' => (x, y, (t + 1) * (t + 2) / 2) :: rho_walk n' (t + 1) y ((2 * x + 3 * y) mod 5)
  end.
Definition rho_table := rho_walk 24 0 1 0.
Fixpoint lookup (x y : nat) (l : list (nat * nat * nat)) : nat :=
  match l with
  | [] => 0
  | (x', y', o) :: l' => if Nat.eqb x x' && Nat.eqb y y' then o else lookup x y l'
  end.
Definition rho_offset (x y : nat) : nat := lookup x y rho_table mod 64.
Definition rho (A : sarray) : sarray :=
  fun x y z => A x y ((z + (64 - rho_offset x y)) mod 64).

(** 3.2.3 pi *)
Definition pi (A : sarray) : sarray := fun x y z => A ((x + 3 * y) mod 5) x z.
(** 3.2.4 chi *)
Definition chi (A : sarray) : sarray :=
  fun x y z => xorb (A x y z) (andb (xorb (A ((x + 1) mod 5) y z) true) (A ((x + 2) mod 5) y z)).

(** 3.2.5 rc and iota (Algorithms 5 and 6) *)
Fixpoint flip_if (c : bool) (is_ : list nat) (R : list bool) (i : nat) : list bool :=
  match R with
  | [] => []
  | b :: R' => (if existsb (Nat.eqb i) is_ then xorb b c else b) :: flip_if c is_ R' (i + 1)
  end.
Definition lfsr_step (R : list bool) : list bool :=
  let R := false :: R in
  firstn 8 (flip_if (nth 8 R false) [0; 4; 5; 6] R 0).
Definition rc (t : nat) : bool :=
  if t mod 255 =? 0 then true
  else nth 0 (Nat.iter (t mod 255) lfsr_step [true; false; false; false; false; false; false; false]) false.
Definition RC (ir : nat) (z : nat) : bool :=
  existsb (fun j => Nat.eqb z (2 ^ j - 1) && rc (j + 7 * ir)) (seq 0 7).
Definition iota (ir : nat) (A : sarray) : sarray :=
  fun x y z => if Nat.eqb x 0 && Nat.eqb y 0 then xorb (A x y z) (RC ir z) else A x y z.

(** ** 3.3, 3.4 Keccak-f[1600] = Keccak-p[1600,24] *)
Definition Rnd (A : sarray) (ir : nat) : sarray := iota ir (chi (pi (rho (theta A)))).
(** The array is rebuilt from its string after every round, so this is a function
    on 1600-bit strings. *)
Definition keccak_f_bits (S : list bool) : list bool :=
  fold_left (fun S ir => to_string (Rnd (to_array S) ir)) (seq 0 24) S.

(** ** 4 Sponge construction (Algorithm 8) and 5.1 pad10*1 (Algorithm 9) *)
Definition pad10star1 (x m : nat) : list bool :=
  (* j = (-m-2) mod x *)
  let j := (x - (m + 2) mod x) mod x in
  [true] ++ repeat false j ++ [true].
Fixpoint xor_bits (a b : list bool) : list bool :=        (* a xor (b || 0...) *)
  match a, b with
  | x :: a', y :: b' => xorb x y :: xor_bits a' b'
  | _, _ => a
  end.
Fixpoint absorb_bits (f : list bool -> list bool) (r : nat) (fuel : nat) (P S : list bool) : list bool :=
  match fuel with
  | O => S
  | Datatypes.S fuel' =>
      match P with
      | [] => S
      | _ => absorb_bits f r fuel' (skipn r P) (f (xor_bits S (firstn r P)))
      end
  end.
Fixpoint squeeze_bits (f : list bool -> list bool) (r : nat) (fuel : nat) (S : list bool) : list bool :=
  match fuel with
  | O => []
  | Datatypes.S fuel' => firstn r S ++ squeeze_bits f r fuel' (f S)
  end.
(** SPONGE[f, pad10*1, r](N, d).  The number of iterations of the two loops is
    |P|/r and floor(d/r)+1; [fuel] is an upper bound on it. *)
Definition sponge (f : list bool -> list bool) (r : nat) (N : list bool) (d : nat) : list bool :=
  let P := N ++ pad10star1 r (length N) in
  let S := absorb_bits f r (length P) P (repeat false 1600) in
  firstn d (squeeze_bits f r (d / r + 1) S).

(** 5.2 KECCAK[c] *)
Definition KECCAK (c : nat) (N : list bool) (d : nat) : list bool := sponge keccak_f_bits (1600 - c) N d.

(** ** 6 SHA-3 function specifications *)
Definition SHA3 (c d : nat) (M : list bool) := KECCAK c (M ++ [false; true]) d.
Definition SHA3_256 := SHA3 512 256.
Definition SHA3_384 := SHA3 768 384.
Definition SHA3_512 := SHA3 1024 512.
Definition SHAKE128 (M : list bool) (d : nat) := KECCAK 256 (M ++ [true; true; true; true]) d.
Definition SHAKE256 (M : list bool) (d : nat) := KECCAK 512 (M ++ [true; true; true; true]) d.

(** B.1: byte strings to bit strings, least significant bit first *)
Definition bits_of_byte (b : Z) : list bool := map (fun i => Z.testbit b (Z.of_nat i)) (seq 0 8).
Definition bits_of_bytes (l : list Z) : list bool := flat_map bits_of_byte l.
