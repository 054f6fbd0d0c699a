(** What "the call wrote these bytes there and nothing else" means (C61-C64). *)
From Coq Require Import ZArith List Bool.
Import ListNotations.
Local Open Scope Z_scope.

(** [mem'] is [mem] with the bytes of [l] at offset [off]. *)
Definition written (mem : list Z) (off : Z) (l mem' : list Z) : Prop :=
  length mem' = length mem /\
  forall i, (i < length mem)%nat ->
    nth i mem' 0 = if (off <=? Z.of_nat i) && (Z.of_nat i <? off + Z.of_nat (length l)) then nth (Z.to_nat (Z.of_nat i - off)) l 0 else nth i mem 0.
