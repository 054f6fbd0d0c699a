(** Specification of the Dilithium samplers over an (unbounded) byte stream, after
    FIPS 204 Algorithms 14, 15, 29, 30, 31 and 34; independent of the code model. *)
From Coq Require Import ZArith List Lia Bool.
Import ListNotations.
Local Open Scope Z_scope.

Module Sample.
(** An infinite byte stream and its first [n] bytes *)
Definition prefix (s : Z -> Z) (n : nat) : list Z := map (fun k => s (Z.of_nat k)) (seq 0 n).

(** Algorithms 14 and 30: the accepted candidates, in order *)
Fixpoint three_byte_candidates (b : list Z) : list Z :=
  match b with
  | b0 :: b1 :: b2 :: b => (b0 + 2 ^ 8 * b1 + 2 ^ 16 * (b2 mod 2 ^ 7)) :: three_byte_candidates b
  | _ => []
  end.
Definition uniform_accepted (b : list Z) : list Z := filter (fun z => z <? 8380417) (three_byte_candidates b).
(** Algorithms 15 and 31 with eta = 2 *)
Definition half_bytes (b : list Z) : list Z := concat (map (fun z => [z mod 16; z / 16]) b).
Definition eta_accepted (b : list Z) : list Z := map (fun z => 2 - z mod 5) (filter (fun z => z <? 15) (half_bytes b)).

(** Algorithm 29: place [n] signs at i, i+1, ..; [b] is the part of the stream after the
    sign bytes and [signs] the remaining sign bits.  [None]: [b] is too short. *)
Definition set (c : list Z) (i v : Z) : list Z := firstn (Z.to_nat i) c ++ v :: skipn (Z.to_nat i + 1) c.
Fixpoint sample_in_ball (b : list Z) (n : nat) (i : Z) (signs : list bool) (c : list Z) : option (list Z) :=
  match n, b with
  | O, _ => Some c
  | S _, [] => None
  | S n', j :: b =>
      if i <? j then sample_in_ball b n i signs c
      else
        let c := set c i (nth (Z.to_nat j) c 0) in
        let c := set c j (if hd false signs then -1 else 1) in
        sample_in_ball b n' (i + 1) (tl signs) c
  end.
(** the bits of a byte string, least significant first *)
Definition bits (b : list Z) : list bool := concat (map (fun z => map (Z.testbit z) [0; 1; 2; 3; 4; 5; 6; 7]) b).
Definition challenge (b : list Z) : option (list Z) :=
  sample_in_ball (skipn 8 b) 39 217 (bits (firstn 8 b)) (repeat 0 256).

Definition nonzero (c : list Z) : Z := Z.of_nat (length (filter (fun x => negb (x =? 0)) c)).
End Sample.
