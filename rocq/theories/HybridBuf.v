(** hybrid-dilithium-sphincs/hybrid.c with all caller buffers in one memory [mem], at offsets that may
    overlap.  Local arrays and the caller's length variables are separate.  Pointers are not NULL
    (Hybrid.v covers NULL).  A loop that copies from one caller buffer to another is the loop of the
    C code, in its order; loops between a caller buffer and a local array are [copy].
    The components [P] are those of Hybrid.v: they only see local arrays, except that they read the
    message and write nothing to the caller's memory. *)
From Verif Require Import Base Hybrid.
Local Open Scope Z_scope.

(** [for (i = 0; i < n; i++) mem[d + i] = mem[s + i];] *)
Definition move (mem : list Z) (d s n : Z) : outcome (list Z) :=
  for_loop n (fun i mem => b <- rd 0 mem (s + i) ;; wr mem (d + i) b) mem.

(** hybrid.c L140-172: seed at [mem + eo], expanded seed at [mem + xo] *)
Fixpoint copy_seed_loop_c (fuel : nat) (i : Z) (seedTemp mem : list Z) (eo : Z) : outcome (list Z) :=
  if i <? 64 then
    match fuel with
    | O => Undef
    | S fuel' =>
        b <- rd 0 mem (eo + i) ;;
        seedTemp' <- wr seedTemp i b ;;
        copy_seed_loop_c fuel' ((i + 1) + 1) seedTemp' mem eo
    end
  else Ret seedTemp.
Definition keypair_seed_expander_c (expander : list Z -> Z -> list Z -> Z -> Z * list Z) (mem : list Z) (eo xo : Z)
  : outcome (Z * list Z) :=
  seedTemp <- copy_seed_loop_c 64 0 (zeros 64) mem eo ;;                      (* L145-148 *)
  let '(ret, expandedSeedTemp) := expander seedTemp 64 (zeros 128) 128 in     (* L151 *)
  if negb (ret =? 0) then Ret (ret, mem) else
  mem <- copy mem xo expandedSeedTemp 0 32 ;;                                 (* L157-159 *)
  mem <- move mem (xo + 32) (eo + 64) 32 ;;                                   (* L162-164 *)
  mem <- copy mem (xo + 64) expandedSeedTemp 32 96 ;;                         (* L167-169 *)
  Ret (0, mem).

Section WithComponents.
Variable P : comps.

(** hybrid.c L174-245: public key at [mem + po], secret key at [mem + ko], seed at [mem + eo] *)
Definition keypair_seed_c (mem : list Z) (po ko eo : Z) : outcome (Z * list Z) :=
  seed1 <- copy (zeros 32) 0 mem eo 32 ;;                                     (* L190-200 *)
  seed2 <- copy (zeros 32) 0 mem (eo + 32) 32 ;;
  seed3 <- copy (zeros 96) 0 mem (eo + 64) 96 ;;
  let '(r1, pk1, sk1) := ed_keypair P seed1 in                                (* L202 *)
  pk1 <- put (zeros 32) pk1 ;;
  sk1 <- put (zeros 64) sk1 ;;
  if negb (r1 =? 0) then Ret (-2, mem) else
  mem <- copy mem po pk1 0 32 ;;                                              (* L207-209 *)
  mem <- copy mem ko sk1 0 64 ;;                                              (* L211-213 *)
  let '(r2, pk2, sk2) := dil_keypair P seed2 in                               (* L215 *)
  pk2 <- put (zeros 1312) pk2 ;;
  sk2 <- put (zeros 2560) sk2 ;;
  if negb (r2 =? 0) then Ret (-3, mem) else
  mem <- copy mem (ko + 64) sk2 0 2560 ;;                                     (* L221-223 *)
  mem <- for_loop 1312 (fun i mem =>                                          (* L225-228 *)
           b <- rd 0 pk2 i ;;
           mem <- wr mem (po + 32 + i) b ;;
           wr mem (ko + 2624 + i) b) mem ;;
  let '(r3, pk3, sk3) := spx_keypair P seed3 in                               (* L230 *)
  pk3 <- put (zeros 64) pk3 ;;
  sk3 <- put (zeros 128) sk3 ;;
  if negb (r3 =? 0) then Ret (-4, mem) else
  mem <- copy mem (ko + 3936) sk3 0 128 ;;                                    (* L236-238 *)
  mem <- copy mem (po + 1344) pk3 0 64 ;;                                     (* L240-242 *)
  Ret (0, mem).

(** hybrid.c L259-344: signed message at [mem + so], message at [mem + mo], secret key at [mem + ko].
    Result: return value, memory, [*smlen] ([l] before the call). *)
Definition sign_full_c (rb : rnd) (mem : list Z) (so l mo mlen ko : Z) : outcome (Z * list Z * Z) :=
  if (mlen <=? 0) || (64 <? mlen) then Ret (-1, mem, l) else                  (* L263 *)
  sk1 <- copy (zeros 64) 0 mem ko 64 ;;                                       (* L278-291 *)
  sk2 <- copy (zeros 2560) 0 mem (ko + 64) 2560 ;;
  sk3 <- copy (zeros 128) 0 mem (ko + 3936) 128 ;;
  msg <- rdrange mem mo mlen ;;                                               (* L294-296 *)
  let c1 := ed_sign P msg sk1 in
  sig1 <- put (zeros 128) (obytes c1) ;;
  let c2 := dil_sign P msg sk2 in
  sig2 <- put (zeros 2420) (obytes c2) ;;
  let c3 := spx_sign P rb msg sk3 in
  sig3 <- put (zeros 49856) (obytes c3) ;;
  if negb (code c1 =? 0) then Ret (-2, mem, l) else                           (* L298-320 *)
  if negb (code c2 =? 0) then Ret (-3, mem, l) else
  if negb (code c3 =? 0) then Ret (-4, mem, l) else
  if negb (olen c1 =? 64 + mlen) then Ret (-5, mem, l) else
  if negb (olen c2 =? 2420) then Ret (-6, mem, l) else
  if negb (olen c3 =? 49856) then Ret (-6, mem, l) else
  mem <- wr mem so 2 ;;                                                       (* L323-324 *)
  mem <- wr mem (so + 1) (u8 mlen) ;;
  mem <- copy mem (so + 2) sig1 0 (i32 (olen c1)) ;;                          (* L327-339 *)
  mem <- copy mem (so + (2 + olen c1)) sig2 0 (olen c2) ;;
  mem <- copy mem (so + (2 + olen c1 + olen c2)) sig3 0 (olen c3) ;;
  Ret (0, mem, 52342 + mlen).                                                 (* L341-343 *)

(** hybrid.c L346-437: message buffer at [mem + mo], signed message at [mem + so], public key at
    [mem + po].  Result: return value, memory, [*mlen] ([l] before the call). *)
Definition open_full_c (mem : list Z) (mo l so smlen po : Z) : outcome (Z * list Z * Z) :=
  if (smlen <? 52343) || (52406 <? smlen) then Ret (-1, mem, l) else          (* L350-353 *)
  id <- rd 0 mem so ;;                                                        (* L355 *)
  if negb (id =? 2) then Ret (-2, mem, l) else
  msgLen <- rd 0 mem (so + 1) ;;                                              (* L360 *)
  if (msgLen <=? 0) || (64 <? msgLen) then Ret (-3, mem, l) else
  if negb (smlen =? 52342 + msgLen) then Ret (-4, mem, l) else                (* L365 *)
  sig1 <- copy (zeros 128) 0 mem (so + 2) (64 + msgLen) ;;                    (* L381 *)
  pk1 <- copy (zeros 32) 0 mem po 32 ;;                                       (* L386 *)
  sig1in <- rdrange sig1 0 (64 + msgLen) ;;
  let c1 := ed_open P sig1in pk1 in                                           (* L390 *)
  msgFromSignature1 <- put (zeros 128) (obytes c1) ;;
  if negb (code c1 =? 0) then Ret (-5, mem, l) else
  if negb (i32 (olen c1) =? msgLen) then Ret (-6, mem, l) else                (* L395 *)
  sig2 <- copy (zeros 2420) 0 mem (so + (66 + msgLen)) 2420 ;;                (* L400 *)
  pk2 <- copy (zeros 1312) 0 mem (po + 32) 1312 ;;                            (* L406 *)
  msg <- rdrange msgFromSignature1 0 msgLen ;;
  if negb (dil_verify P sig2 msg pk2 =? 0) then Ret (-7, mem, l) else         (* L410 *)
  sig3 <- copy (zeros 49856) 0 mem (so + (2486 + msgLen)) 49856 ;;            (* L416 *)
  pk3 <- copy (zeros 64) 0 mem (po + 1344) 64 ;;                              (* L421 *)
  if negb (spx_verify P sig3 msg pk3 =? 0) then Ret (-8, mem, l) else         (* L425 *)
  mem <- copy mem mo msgFromSignature1 0 msgLen ;;                            (* L430 *)
  Ret (0, mem, msgLen).

(** hybrid.c L468-564 *)
Definition sign_compact_c (rb : rnd) (mem : list Z) (so l mo mlen ko : Z) : outcome (Z * list Z * Z) :=
  if (mlen <=? 0) || (64 <? mlen) then Ret (-1, mem, l) else                  (* L472 *)
  sk1 <- copy (zeros 64) 0 mem ko 64 ;;                                       (* L488 *)
  sk2 <- copy (zeros 2560) 0 mem (ko + 64) 2560 ;;
  let '(r, rbytes) := rb 40 in                                                (* L498 *)
  nonce <- put (zeros 40) rbytes ;;
  if negb (r =? 0) then Ret (-1, mem, l) else
  hybridMsg <- copy (zeros 168) 0 nonce 0 40 ;;                               (* L502 *)
  hybridMsg <- copy hybridMsg 40 mem mo mlen ;;                               (* L506 *)
  hybridMsg <- copy hybridMsg (40 + mlen) mem (ko + 4000) 64 ;;               (* L510 *)
  hin <- rdrange hybridMsg 0 (40 + mlen + 64) ;;
  hybridMessageHash <- put (zeros 64) (sha3_512 P hin) ;;                     (* L515 *)
  hmsg <- rdrange hybridMessageHash 0 64 ;;
  let c1 := ed_sign P hmsg sk1 in                                             (* L518 *)
  sig1 <- put (zeros 128) (obytes c1) ;;
  let c2 := dil_sign P hmsg sk2 in                                            (* L519 *)
  sig2 <- put (zeros 2420) (obytes c2) ;;
  if negb (code c1 =? 0) then Ret (-2, mem, l) else
  if negb (code c2 =? 0) then Ret (-3, mem, l) else
  if negb (olen c1 =? 128) then Ret (-4, mem, l) else
  if negb (olen c2 =? 2420) then Ret (-5, mem, l) else
  mem <- wr mem so 1 ;;                                                       (* L538 *)
  mem <- wr mem (so + 1) (u8 mlen) ;;
  mem <- copy mem (so + 2) sig1 0 64 ;;                                       (* L542 *)
  mem <- copy mem (so + 66) sig2 0 2420 ;;                                    (* L547 *)
  mem <- copy mem (so + 2486) nonce 0 40 ;;                                   (* L552 *)
  mem <- move mem (so + 2526) mo mlen ;;                                      (* L557 *)
  Ret (0, mem, 2526 + mlen).                                                  (* L561 *)

(** hybrid.c L566-667 *)
Definition open_compact_c (mem : list Z) (mo l so smlen po : Z) : outcome (Z * list Z * Z) :=
  if (smlen <? 2527) || (2590 <? smlen) then Ret (-1, mem, l) else            (* L570-573 *)
  id <- rd 0 mem so ;;
  if negb (id =? 1) then Ret (-2, mem, l) else
  msgLen <- rd 0 mem (so + 1) ;;
  if (msgLen <=? 0) || (64 <? msgLen) then Ret (-3, mem, l) else
  if negb (smlen =? 2526 + msgLen) then Ret (-4, mem, l) else                 (* L585 *)
  hybridMsg <- copy (zeros 168) 0 mem (so + 2486) 40 ;;                       (* L599 *)
  hybridMsg <- copy hybridMsg 40 mem (so + 2526) msgLen ;;                    (* L602 *)
  hybridMsg <- copy hybridMsg (40 + msgLen) mem (po + 1344) 64 ;;             (* L605 *)
  hin <- rdrange hybridMsg 0 (40 + msgLen + 64) ;;
  hybridMessageHash <- put (zeros 64) (sha3_512 P hin) ;;                     (* L610 *)
  sig1 <- copy (zeros 128) 0 mem (so + 2) 64 ;;                               (* L614 *)
  sig1 <- copy sig1 64 hybridMessageHash 0 64 ;;                              (* L619 *)
  pk1 <- copy (zeros 32) 0 mem po 32 ;;                                       (* L624 *)
  sig1in <- rdrange sig1 0 128 ;;
  let c1 := ed_open P sig1in pk1 in                                           (* L628 *)
  msgFromSignature1 <- put (zeros 128) (obytes c1) ;;
  if negb (code c1 =? 0) then Ret (-5, mem, l) else
  if negb (olen c1 =? 64) then Ret (-6, mem, l) else                          (* L633 *)
  eq <- cmp_from 64 0 msgFromSignature1 hybridMessageHash ;;                  (* L638 *)
  if negb eq then Ret (-7, mem, l) else
  sig2 <- copy (zeros 2420) 0 mem (so + 66) 2420 ;;                           (* L645 *)
  pk2 <- copy (zeros 1312) 0 mem (po + 32) 1312 ;;                            (* L650 *)
  hmsg <- rdrange hybridMessageHash 0 64 ;;
  if negb (dil_verify P sig2 hmsg pk2 =? 0) then Ret (-8, mem, l) else        (* L654 *)
  mem <- move mem mo (so + 2526) msgLen ;;                                    (* L660 *)
  Ret (0, mem, msgLen).
End WithComponents.
