(** What an observer of branches and addresses may learn from one lattice signature, written over the
    specification of DilFips.v only.

    Signing tries candidates until one is accepted.  Of each candidate the observer may learn the
    challenge seed and how the candidate fared: the position of the first coefficient that is too
    large in the first vector that has one, or, if there is none, for every coefficient which of the
    comparisons that make up the hint hold. *)
From Coq Require Import ZArith List Bool.
From Verif Require Import DilSpec DilEncSpec DilSampleSpec DilFips.
Import ListNotations.
Local Open Scope Z_scope.

Module Leak.
Import MLDSA.
(** position of the first element that satisfies [p] *)
Fixpoint first {A} (p : A -> bool) (l : list A) : option nat :=
  match l with [] => None | x :: l => if p x then Some O else option_map S (first p l) end.
(** the first coefficient whose centred residue is [B] or more in absolute value *)
Definition first_big (B : Z) (v : list (list Z)) : option nat :=
  first (fun x => B <=? Z.abs (Spec.mods x Spec.q)) (concat v).
(** The hint compares low = r + t - HighBits(r) 2 gamma2 (centred) with the bounds -gamma2 and gamma2. *)
Inductive hcase := Above | Below | EdgeZero | EdgeNonzero | Inside.
Definition hint_case (high low : Z) : hcase :=
  if Spec.gamma2 <? low then Above
  else if low <? - Spec.gamma2 then Below
  else if low =? - Spec.gamma2 then (if high =? 0 then EdgeZero else EdgeNonzero)
  else Inside.
Definition hint_cases (high sum : list (list Z)) : list (list hcase) :=
  map (fun r => map (fun i => hint_case (coef high r i) (Spec.mods (coef sum r i - coef high r i * (2 * Spec.gamma2)) Spec.q)) (seq 0 256)) (seq 0 4).

(** How a candidate fares: z is too large, r = w - c s2 has low bits that are too large, c t0 is too
    large, or the hint is computed. *)
Inductive fate := BigZ (k : nat) | BigR (k : nat) | BigT (k : nat) | Hints (l : list (list hcase)).
Definition fate_of (z r ct0 : list (list Z)) : fate :=
  match first_big (gamma1 - beta) z with
  | Some k => BigZ k
  | None =>
      match first_big (Spec.gamma2 - beta) (vmap Spec.LowBits r) with
      | Some k => BigR k
      | None =>
          match first_big Spec.gamma2 ct0 with
          | Some k => BigT k
          | None => Hints (hint_cases (vmap Spec.HighBits r) (vadd r ct0))
          end
      end
  end.
(** The observable part of round [kappa] of the signing loop ([MLDSA.attempt]). *)
Definition view (A : list (list (list Z))) (s1 s2 t0 : list (list Z)) (mu rho'' : list Z) (kappa : Z) (o : list Z * fate) : Prop :=
  let y := expand_mask rho'' kappa in
  let w := matvec A y in
  let c := H (mu ++ w1_encode (vmap Spec.HighBits w)) 32 in
  exists cp, sample_in_ball c cp /\
  o = (c, fate_of (vadd y (cmul cp s1)) (vsub w (cmul cp s2)) (cmul cp t0)).
(** The rounds up to and including the one that gives the signature. *)
Definition history (sk m sig : list Z) (l : list (list Z * fate)) : Prop :=
  exists rho K tr s1 s2 t0, fields rho K tr s1 s2 t0 /\ sk = sk_encode rho K tr s1 s2 t0 /\
  exists A, expand_A rho A /\
    let mu := H (tr ++ m) 64 in
    let rho'' := H (K ++ repeat 0 32 ++ mu) 64 in
    (forall k o, nth_error l k = Some o -> view A s1 s2 t0 mu rho'' (4 * Z.of_nat k) o) /\
    (forall k, (S k < length l)%nat -> attempt A s1 s2 t0 mu rho'' (4 * Z.of_nat k) None) /\
    l <> [] /\ attempt A s1 s2 t0 mu rho'' (4 * Z.of_nat (length l - 1)) (Some sig).

(** The observable part of the accepted round, computed from the public key and the signature as the
    verifier would: w is the verifier's A z - c t1 2^13 and UseHint(h, w) its w1. *)
Definition accepted (pk sig : list Z) (o : list Z * fate) : Prop :=
  exists c z h A cp,
    Enc.bytes 32 c /\ Enc.vec_in (- (gamma1 - 1)) gamma1 z /\ Enc.hints h /\ sig = sig_encode c z h /\
    expand_A (pk_rho pk) A /\ sample_in_ball c cp /\
    let w := vsub (matvec A z) (cmul cp (vmap (fun x => x * 2 ^ 13) (pk_t1 pk))) in
    o = (c, Hints (hint_cases (vmap2 (fun b x => Spec.UseHint (negb (b =? 0)) x) h w) w)).

(** Key generation draws the coefficients of the secret vectors from half-bytes of a hash stream
    and rejects the value 15.  Two streams look alike if the same half-bytes are rejected up to a
    point where 256 have been accepted. *)
Definition accepts (seed : list Z) (n : nat) : list bool :=
  map (fun z => z <? 15) (Sample.half_bytes (H seed (Z.of_nat n))).
Definition alike (seed seed' : list Z) : Prop :=
  exists n, accepts seed n = accepts seed' n /\ (256 <= count_occ bool_dec (accepts seed n) true)%nat.
(** Two seeds that give the same public matrix seed and look alike in all eight secret polynomials. *)
Definition same_rejections (xi xi' : list Z) : Prop :=
  firstn 32 (H xi 128) = firstn 32 (H xi' 128) /\
  forall r, 0 <= r < 8 -> alike (firstn 64 (skipn 32 (H xi 128)) ++ int2 r) (firstn 64 (skipn 32 (H xi' 128)) ++ int2 r).
End Leak.
