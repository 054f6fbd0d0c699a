(** Specification of the Dilithium encodings (FIPS 204 section 7.1), independent of the
    code model. *)
From Coq Require Import ZArith List Lia Bool.
Import ListNotations.
Local Open Scope Z_scope.

Module Enc.
(** the integer with base-2^w digits l, least significant first *)
Fixpoint value (w : Z) (l : list Z) : Z := match l with [] => 0 | x :: l => x + 2 ^ w * value w l end.
Definition bytes (n : Z) (b : list Z) : Prop := Z.of_nat (length b) = n /\ Forall (fun x => 0 <= x < 256) b.
Definition poly_in (lo hi : Z) (a : list Z) : Prop := length a = 256%nat /\ Forall (fun x => lo <= x <= hi) a.
Definition vec_in (lo hi : Z) (v : list (list Z)) : Prop := length v = 4%nat /\ Forall (poly_in lo hi) v.

(** HintBitPack: the positions of the ones, polynomial by polynomial in increasing order,
    filled up with zeros to 80 bytes, then the four running totals. *)
Definition positions (h : list Z) : list Z :=
  filter (fun j => negb (nth (Z.to_nat j) h 0 =? 0)) (map Z.of_nat (seq 0 256)).
Definition weight (hs : list (list Z)) : Z := Z.of_nat (length (concat (map positions hs))).
Definition hint_bytes (hs : list (list Z)) : list Z :=
  concat (map positions hs) ++ repeat 0 (Z.to_nat (80 - weight hs)) ++
  map (fun i => weight (firstn i hs)) [1; 2; 3; 4]%nat.
Definition hints (hs : list (list Z)) : Prop := vec_in 0 1 hs /\ weight hs <= 80.
End Enc.
