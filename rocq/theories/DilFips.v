(** Specification of the lattice signature scheme as a whole: key generation, signing and
    verification, after FIPS 204 Algorithms 6, 7, 8 and 22-34 with the ML-DSA-44 parameters.

    Everything is written over the ring Z[X]/(X^256 + 1) with schoolbook products and over
    the byte strings of the standard; there is no NTT arithmetic, no Montgomery form, no
    choice of representatives and no bound on any loop.  The only functions shared with the
    code model are the hash functions SHAKE128 and SHAKE256.

    Two places follow the version of the standard the code was written against and not the
    final one: the key generation seed is hashed without the parameter bytes k and l, and
    the message is signed without the context prefix.  Signing is the deterministic variant. *)
From Coq Require Import ZArith List Lia Bool.
From Verif Require Import SpongePure DilSpec DilEncSpec DilSampleSpec.
Import ListNotations.
Local Open Scope Z_scope.

Module MLDSA.
Definition H (x : list Z) (n : Z) : list Z := shake256_bytes x n.
Definition G (x : list Z) (n : Z) : list Z := shake128_bytes x n.

(** ** Polynomials and vectors of four polynomials *)
Definition mkpoly (f : nat -> Z) : list Z := map f (seq 0 256).
Definition mkvec (f : nat -> list Z) : list (list Z) := map f (seq 0 4).
Definition coef (v : list (list Z)) (r i : nat) : Z := nth i (nth r v []) 0.
Definition vmap (f : Z -> Z) (v : list (list Z)) := mkvec (fun r => mkpoly (fun i => f (coef v r i))).
Definition vmap2 (f : Z -> Z -> Z) (u v : list (list Z)) := mkvec (fun r => mkpoly (fun i => f (coef u r i) (coef v r i))).
Definition vadd := vmap2 Z.add.
Definition vsub := vmap2 Z.sub.
(** a polynomial times a vector, and a matrix times a vector *)
Definition cmul (c : list Z) (v : list (list Z)) := mkvec (fun r => mkpoly (Spec.negacyclic c (nth r v []))).
Definition matvec (A : list (list (list Z))) (v : list (list Z)) :=
  mkvec (fun r => mkpoly (fun i => Spec.sum 4 (fun s => Spec.negacyclic (nth s (nth r A []) []) (nth s v []) i))).
(** every coefficient, centred modulo q, is below B in absolute value *)
Definition norm_lt (B : Z) (v : list (list Z)) : Prop :=
  forall r i, (r < 4)%nat -> (i < 256)%nat -> Z.abs (Spec.mods (coef v r i) Spec.q) < B.

(** ** Encodings (Algorithms 16-21, 28) *)
(** the n-byte little-endian encoding of v *)
Definition le_bytes (n : nat) (v : Z) : list Z := map (fun i => (v / 256 ^ Z.of_nat i) mod 256) (seq 0 n).
(** 256 coefficients of w bits each *)
Definition pack (w : nat) (l : list Z) : list Z := le_bytes (32 * w) (Enc.value (Z.of_nat w) l).
Definition unpack (w : nat) (b : list Z) : list Z :=
  mkpoly (fun i => (Enc.value 8 b / 2 ^ (Z.of_nat w * Z.of_nat i)) mod 2 ^ Z.of_nat w).
Definition pack_vec (w : nat) (v : list (list Z)) : list Z := concat (map (pack w) v).
(** the r-th of four blocks of n bytes *)
Definition block (n r : nat) (b : list Z) : list Z := firstn n (skipn (n * r) b).
Definition unpack_vec (w : nat) (b : list Z) : list (list Z) := mkvec (fun r => unpack w (block (32 * w) r b)).

Definition pk_encode (rho : list Z) (t1 : list (list Z)) : list Z := rho ++ pack_vec 10 t1.
Definition pk_rho (pk : list Z) : list Z := firstn 32 pk.
Definition pk_t1 (pk : list Z) : list (list Z) := unpack_vec 10 (skipn 32 pk).
Definition sk_encode (rho K tr : list Z) (s1 s2 t0 : list (list Z)) : list Z :=
  rho ++ K ++ tr ++ pack_vec 3 (vmap (fun x => 2 - x) s1) ++ pack_vec 3 (vmap (fun x => 2 - x) s2)
  ++ pack_vec 13 (vmap (fun x => 2 ^ 12 - x) t0).
Definition gamma1 : Z := 2 ^ 17.
Definition beta : Z := 78.
Definition sig_encode (c : list Z) (z h : list (list Z)) : list Z :=
  c ++ pack_vec 18 (vmap (fun x => gamma1 - x) z) ++ Enc.hint_bytes h.
Definition w1_encode (w1 : list (list Z)) : list Z := pack_vec 6 w1.

(** ** Expansion of seeds (Algorithms 29-34) *)
Definition int2 (n : Z) : list Z := [n mod 256; (n / 256) mod 256].
(** the first 256 accepted candidates of the SHAKE128 (SHAKE256) output stream of [seed] *)
Definition rej_ntt (seed a : list Z) : Prop :=
  exists n, a = firstn 256 (Sample.uniform_accepted (G seed (Z.of_nat n))) /\ length a = 256%nat.
Definition rej_bounded (seed a : list Z) : Prop :=
  exists n, a = firstn 256 (Sample.eta_accepted (H seed (Z.of_nat n))) /\ length a = 256%nat.
(** The matrix is sampled in the transformed domain: the sampled numbers are the values of
    its entries at the odd powers of 1753, a 512-th root of unity, in bit-reversed order. *)
Definition expand_A (rho : list Z) (A : list (list (list Z))) : Prop :=
  length A = 4%nat /\ Forall (Enc.vec_in 0 (Spec.q - 1)) A /\
  forall r s, (r < 4)%nat -> (s < 4)%nat ->
    exists ahat, rej_ntt (rho ++ [Z.of_nat s; Z.of_nat r]) ahat /\
    forall i, (i < 256)%nat ->
      Spec.cong (Spec.eval (nth s (nth r A []) []) (1753 ^ (2 * Spec.brv8 (Z.of_nat i) + 1))) (nth i ahat 0).
Definition expand_S (rho' : list Z) (s1 s2 : list (list Z)) : Prop :=
  length s1 = 4%nat /\ length s2 = 4%nat /\
  forall r, (r < 4)%nat -> rej_bounded (rho' ++ int2 (Z.of_nat r)) (nth r s1 []) /\
                           rej_bounded (rho' ++ int2 (Z.of_nat r + 4)) (nth r s2 []).
Definition expand_mask (rho'' : list Z) (kappa : Z) : list (list Z) :=
  mkvec (fun r => map (fun d => gamma1 - d) (unpack 18 (H (rho'' ++ int2 (kappa + Z.of_nat r)) 576))).
Definition sample_in_ball (seed c : list Z) : Prop :=
  exists n, Sample.challenge (H seed (Z.of_nat n)) = Some c.

(** ** Key generation (Algorithm 6) *)
Definition keygen (xi pk sk : list Z) : Prop :=
  let s := H xi 128 in
  let rho := firstn 32 s in let rho' := firstn 64 (skipn 32 s) in let K := skipn 96 s in
  exists A s1 s2, expand_A rho A /\ expand_S rho' s1 s2 /\
    let t := vadd (matvec A s1) s2 in
    let t1 := vmap (fun x => fst (Spec.Power2Round x)) t in
    let t0 := vmap (fun x => snd (Spec.Power2Round x)) t in
    pk = pk_encode rho t1 /\ sk = sk_encode rho K (H pk 64) s1 s2 t0.

(** ** Signing (Algorithm 7, deterministic) *)
(** one round of the loop; the result is [None] if the candidate is rejected *)
Definition attempt (A : list (list (list Z))) (s1 s2 t0 : list (list Z)) (mu rho'' : list Z) (kappa : Z)
    (res : option (list Z)) : Prop :=
  let y := expand_mask rho'' kappa in
  let w := matvec A y in
  let c := H (mu ++ w1_encode (vmap Spec.HighBits w)) 32 in
  exists cp, sample_in_ball c cp /\
  let z := vadd y (cmul cp s1) in
  let r := vsub w (cmul cp s2) in
  let ct0 := cmul cp t0 in
  let h := vmap2 (fun r t => if Spec.MakeHint (- t) (r + t) then 1 else 0) r ct0 in
  let good := norm_lt (gamma1 - beta) z /\ norm_lt (Spec.gamma2 - beta) (vmap Spec.LowBits r) /\
              norm_lt Spec.gamma2 ct0 /\ Enc.weight h <= 80 in
  match res with
  | Some sig => good /\ sig = sig_encode c (vmap (fun x => Spec.mods x Spec.q) z) h
  | None => ~ good
  end.
Definition fields (rho K tr : list Z) (s1 s2 t0 : list (list Z)) : Prop :=
  Enc.bytes 32 rho /\ Enc.bytes 32 K /\ Enc.bytes 64 tr /\
  Enc.vec_in (-2) 2 s1 /\ Enc.vec_in (-2) 2 s2 /\ Enc.vec_in (-4095) 4096 t0.
(** a secret key in the range of the encoding, as every generated one is *)
Definition secret_key (sk : list Z) : Prop :=
  exists rho K tr s1 s2 t0, fields rho K tr s1 s2 t0 /\ sk = sk_encode rho K tr s1 s2 t0.
Definition sign (sk m sig : list Z) : Prop :=
  exists rho K tr s1 s2 t0, fields rho K tr s1 s2 t0 /\ sk = sk_encode rho K tr s1 s2 t0 /\
  exists A n, expand_A rho A /\
    let mu := H (tr ++ m) 64 in
    let rho'' := H (K ++ repeat 0 32 ++ mu) 64 in
    (forall k, 0 <= k < n -> attempt A s1 s2 t0 mu rho'' (4 * k) None) /\ 0 <= n /\
    attempt A s1 s2 t0 mu rho'' (4 * n) (Some sig).

(** ** Verification (Algorithm 8) *)
Definition verify (pk m sig : list Z) : Prop :=
  exists c z h A cp,
    Enc.bytes 32 c /\ Enc.vec_in (- (gamma1 - 1)) gamma1 z /\ Enc.hints h /\ sig = sig_encode c z h /\
    norm_lt (gamma1 - beta) z /\ expand_A (pk_rho pk) A /\ sample_in_ball c cp /\
    let mu := H (H pk 64 ++ m) 64 in
    let w := vsub (matvec A z) (cmul cp (vmap (fun x => x * 2 ^ 13) (pk_t1 pk))) in
    let w1 := vmap2 (fun b x => Spec.UseHint (negb (b =? 0)) x) h w in
    c = H (mu ++ w1_encode w1) 32.
End MLDSA.
