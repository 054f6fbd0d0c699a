(** Ed25519 as specified by RFC 8032, section 5.1: the field, the twisted Edwards curve
    -x^2 + y^2 = 1 + d x^2 y^2, its addition law, encodings, signing and verification.
    Independent of the code: nothing here mentions limbs, carries, extended coordinates
    or ladders. *)
From Verif Require Import Base NumTheory.

(** The prime 2^255 - 19 and the curve constant d = -121665/121666. *)
Definition edp : Z := 2 ^ 255 - 19.
Definition edd : Z := 37095705934669439343138083508754565189542113879843219016388785533085940283555.
(** Order of the base point: 2^252 + 27742317777372353535851937790883648493. *)
Definition edL : Z := 2 ^ 252 + 27742317777372353535851937790883648493.

(** Inverse in the field, x^(p-2). *)
Definition finv (x : Z) : Z := powm_pos edp x (Z.to_pos (edp - 2)).

(** A point in affine coordinates; each coordinate is a residue 0 <= c < p. *)
Definition point : Type := (Z * Z)%type.
Definition on_curve (P : point) : Prop :=
  let '(x, y) := P in
  0 <= x < edp /\ 0 <= y < edp /\ (y * y - x * x) mod edp = (1 + edd * x * x * y * y) mod edp.

(** The complete addition law (RFC 8032, section 5.1.4, in affine form). *)
Definition padd (P Q : point) : point :=
  let '(x1, y1) := P in let '(x2, y2) := Q in
  let k := edd * x1 * x2 * y1 * y2 in
  (((x1 * y2 + x2 * y1) * finv (1 + k)) mod edp,
   ((y1 * y2 + x1 * x2) * finv (1 - k)) mod edp).
Definition pzero : point := (0, 1).
Definition pneg (P : point) : point := let '(x, y) := P in ((- x) mod edp, y).
(** [n]P: P added to itself n times. *)
Definition smul (n : Z) (P : point) : point := Z.iter n (padd P) pzero.

(** The base point: y = 4/5, x even. *)
Definition edB : point :=
  (15112221349535400772501151409588531511454012693041857206046113283949847762202,
   46316835694926478169428394003475163141307993866256225615783033603165251855960).

(** Little-endian integers. *)
Fixpoint le_val (l : list Z) : Z := match l with [] => 0 | b :: r => b + 256 * le_val r end.
Fixpoint le_bytes (n : nat) (v : Z) : list Z :=
  match n with O => [] | S n => v mod 256 :: le_bytes n (v / 256) end.

(** Encoding of a point: 255 bits of y, then the low bit of x (RFC 8032, 5.1.2). *)
Definition penc (P : point) : list Z := let '(x, y) := P in le_bytes 32 (y + 2 ^ 255 * (x mod 2)).
