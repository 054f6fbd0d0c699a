(** hybrid-dilithium-sphincs/hybrid.c as one program with everything it calls: the heap-level programs of
    dilithium2 and common/ (Heap.v) and of SPHINCS+ (SpxHeap.v), and TweetNaCl (Tweet.v, TweetBuf.v).

    - The memory of a call is the caller's memory [mem] followed by the local arrays whose address is
      passed on or that are copied from and to the caller's memory; [F = zlen mem] is where the local
      arrays begin.  A callee gets the whole memory and offsets into it, so whatever it writes is
      visible, also outside the array it was given.  On return only [slice fr 0 F] is left.
    - Key arrays (sk1, pk1, ...) and the nonce are separate lists: the callees take them as lists.
    - Pointers are not NULL (Hybrid.v covers NULL); buffers of the caller may overlap in any way.
    - [loc n], [locw n]: contents of an uninitialised local array of [n] bytes or words, [fuel]: bound
      on the Dilithium rejection loops ([More] beyond it), [rb]: randombytes. *)
From Verif Require Import Base Hybrid Heap HybridBuf.
From Verif Require Tweet TweetBuf Sponge SpxHeap.
Local Open Scope Z_scope.
Local Open Scope heap_scope.

Section Prog.
Variables loc locw : Z -> list Z.
Variable fuel : nat.

(** hybrid.c L140-172: seed at [mem + eo], expanded seed at [mem + xo] *)
Definition keypair_seed_expander_p (mem : list Z) (eo xo : Z) : M (Z * list Z) :=
  seedTemp <- copy_seed_loop_c 64 0 (zeros 64) mem eo ;;                       (* L145-148 *)
  '(ret, x) <- seedexpander_wrapper_h (Some seedTemp) 64 (Some (zeros 128)) 128 ;; (* L151 *)
  if negb (ret =? 0) then mret (ret, mem) else
  match x with
  | None => lift Undef
  | Some x =>
    mem <- copy mem xo x 0 32 ;;                                               (* L157-159 *)
    mem <- move mem (xo + 32) (eo + 64) 32 ;;                                  (* L162-164 *)
    mem <- copy mem (xo + 64) x 32 96 ;;                                       (* L167-169 *)
    mret (0, mem)
  end.

(** hybrid.c L174-245: public key at [mem + po], secret key at [mem + ko], seed at [mem + eo] *)
Definition keypair_seed_p (mem : list Z) (po ko eo : Z) : M (Z * list Z) :=
  seed1 <- copy (zeros 32) 0 mem eo 32 ;;                                      (* L190-200 *)
  seed2 <- copy (zeros 32) 0 mem (eo + 32) 32 ;;
  seed3 <- copy (zeros 96) 0 mem (eo + 64) 96 ;;
  '(r1, pk1, sk1) <- Tweet.ed_keypair_seed seed1 ;;                            (* L202 *)
  if negb (r1 =? 0) then mret (-2, mem) else
  mem <- copy mem po pk1 0 32 ;;                                               (* L207-209 *)
  mem <- copy mem ko sk1 0 64 ;;                                               (* L211-213 *)
  '(r2, pk2, sk2) <- keypair_seed_h loc fuel (zeros 1312) (zeros 2560) seed2 ;; (* L215 *)
  if negb (r2 =? 0) then mret (-3, mem) else
  mem <- copy mem (ko + 64) sk2 0 2560 ;;                                      (* L221-223 *)
  mem <- for_loop 1312 (fun i mem =>                                           (* L225-228 *)
           bind (rd 0 pk2 i) (fun b => bind (wr mem (po + 32 + i) b) (fun mem => wr mem (ko + 2624 + i) b))) mem ;;
  '(r3, pk3, sk3) <- SpxHeap.seed_keypair_hp loc locw (zeros 64) (zeros 128) seed3 ;; (* L230 *)
  if negb (r3 =? 0) then mret (-4, mem) else
  mem <- copy mem (ko + 3936) sk3 0 128 ;;                                     (* L236-238 *)
  mem <- copy mem (po + 1344) pk3 0 64 ;;                                      (* L240-242 *)
  mret (0, mem).

(** hybrid.c L247-257: the 160 bytes of seed are a local array behind the caller's memory *)
Definition keypair_p (rb : rnd) (mem : list Z) (po ko : Z) : M (Z * list Z) :=
  let F := zlen mem in
  let '(r, bs) := rb 160 in                                                    (* L253 *)
  seed <- copy (loc 160) 0 bs 0 160 ;;
  if negb (r =? 0) then mret (-1, mem) else
  '(c, fr) <- keypair_seed_p (mem ++ seed) po ko F ;;                          (* L256 *)
  mret (c, slice fr 0 F).

(** hybrid.c L259-344: signed message at [mem + so], message at [mem + mo], secret key at [mem + ko].
    Result: return value, memory, [*smlen] ([l] before the call).
    Local arrays: sig1[128] at [F], sig2[2420] at [F + 128], sig3[49856] at [F + 2548]. *)
Definition sign_full_p (rb : rnd) (mem : list Z) (so l mo mlen ko : Z) : M (Z * list Z * Z) :=
  if (mlen <=? 0) || (64 <? mlen) then mret (-1, mem, l) else                  (* L263 *)
  let F := zlen mem in
  let fr := mem ++ zeros 128 ++ zeros 2420 ++ zeros 49856 in                   (* L271-273 *)
  sk1 <- copy (zeros 64) 0 fr ko 64 ;;                                         (* L279-291 *)
  sk2 <- copy (zeros 2560) 0 fr (ko + 64) 2560 ;;
  sk3 <- copy (zeros 128) 0 fr (ko + 3936) 128 ;;
  '(r1, l1, fr) <- TweetBuf.ed_sign_c fr F mo mlen sk1 ;;                      (* L294-296 *)
  '(r2, fr, l2) <- sign_signature_h loc fuel fr (F + 128) mo mlen sk2 ;;
  '(r3, l3, fr) <- SpxHeap.sign_signature_hp loc locw rb fr (F + 2548) 0 mo mlen sk3 ;;
  if negb (r1 =? 0) then mret (-2, slice fr 0 F, l) else                       (* L298-320 *)
  if negb (r2 =? 0) then mret (-3, slice fr 0 F, l) else
  if negb (r3 =? 0) then mret (-4, slice fr 0 F, l) else
  if negb (l1 =? 64 + mlen) then mret (-5, slice fr 0 F, l) else
  if negb (l2 =? 2420) then mret (-6, slice fr 0 F, l) else
  if negb (l3 =? 49856) then mret (-6, slice fr 0 F, l) else
  fr <- wr fr so 2 ;;                                                          (* L323-324 *)
  fr <- wr fr (so + 1) (u8 mlen) ;;
  fr <- move fr (so + 2) F (i32 l1) ;;                                         (* L327-339 *)
  fr <- move fr (so + (2 + l1)) (F + 128) l2 ;;
  fr <- move fr (so + (2 + l1 + l2)) (F + 2548) l3 ;;
  mret (0, slice fr 0 F, 52342 + mlen).                                        (* L341-343 *)

(** hybrid.c L346-437: message buffer at [mem + mo], signed message at [mem + so], public key at
    [mem + po].  Result: return value, memory, [*mlen] ([l] before the call).
    Local arrays: msgFromSignature1[128] at [F], sig1[128] at [F + 128], sig2[2420] at [F + 256],
    sig3[49856] at [F + 2676]. *)
Definition open_full_p (mem : list Z) (mo l so smlen po : Z) : M (Z * list Z * Z) :=
  if (smlen <? 52343) || (52406 <? smlen) then mret (-1, mem, l) else          (* L350-353 *)
  id <- rd 0 mem so ;;                                                         (* L355 *)
  if negb (id =? 2) then mret (-2, mem, l) else
  msgLen <- rd 0 mem (so + 1) ;;                                               (* L360 *)
  if (msgLen <=? 0) || (64 <? msgLen) then mret (-3, mem, l) else
  if negb (smlen =? 52342 + msgLen) then mret (-4, mem, l) else                (* L365 *)
  let F := zlen mem in
  let fr := mem ++ zeros 128 ++ zeros 128 ++ zeros 2420 ++ zeros 49856 in      (* L371-375 *)
  fr <- move fr (F + 128) (so + 2) (64 + msgLen) ;;                            (* L381 *)
  pk1 <- copy (zeros 32) 0 fr po 32 ;;                                         (* L386 *)
  '(r1, l1, fr) <- TweetBuf.ed_open_c fr F (F + 128) (64 + msgLen) pk1 ;;      (* L390 *)
  if negb (r1 =? 0) then mret (-5, slice fr 0 F, l) else
  if negb (i32 l1 =? msgLen) then mret (-6, slice fr 0 F, l) else              (* L395 *)
  fr <- move fr (F + 256) (so + (66 + msgLen)) 2420 ;;                         (* L400 *)
  pk2 <- copy (zeros 1312) 0 fr (po + 32) 1312 ;;                              (* L406 *)
  r2 <- sign_verify_h loc fuel fr (F + 256) 2420 F msgLen pk2 ;;               (* L410 *)
  if negb (r2 =? 0) then mret (-7, slice fr 0 F, l) else
  fr <- move fr (F + 2676) (so + (2486 + msgLen)) 49856 ;;                     (* L416 *)
  pk3 <- copy (zeros 64) 0 fr (po + 1344) 64 ;;                                (* L421 *)
  r3 <- SpxHeap.sign_verify_hp loc locw fr (F + 2676) 49856 F msgLen pk3 ;;    (* L425 *)
  if negb (r3 =? 0) then mret (-8, slice fr 0 F, l) else
  fr <- move fr mo F msgLen ;;                                                 (* L430 *)
  mret (0, slice fr 0 F, msgLen).

(** [for (i = 0; i < n; i++) if (fr[a + i] != fr[b + i]) return;] *)
Fixpoint same_from (n : nat) (i : Z) (fr : list Z) (a b : Z) : outcome bool :=
  match n with
  | O => Ret true
  | S n => bind (rd 0 fr (a + i)) (fun x => bind (rd 0 fr (b + i)) (fun y => if x =? y then same_from n (i + 1) fr a b else Ret false))
  end.

(** hybrid.c L439-466: message at [mem + mo]; msgFromSignature1[224] at [F] *)
Definition verify_full_p (mem : list Z) (mo mlen so smlen po : Z) : M Z :=
  if (mlen <=? 0) || (64 <? mlen) then mret (-1) else                          (* L443 *)
  let F := zlen mem in
  '(r, fr, len) <- open_full_p (mem ++ zeros 224) F 0 so smlen po ;;           (* L450 *)
  if negb (r =? 0) then mret (-2) else
  if negb (len =? mlen) then mret (-3) else                                    (* L455 *)
  eq <- same_from (Z.to_nat (i32 len)) 0 fr F mo ;;                            (* L459-463 *)
  mret (if eq : bool then 0 else -4).

(** hybrid.c L468-564.  Local arrays: sig1[128] at [F], sig2[2420] at [F + 128],
    hybridMsg[168] at [F + 2548], hybridMessageHash[64] at [F + 2716]. *)
Definition sign_compact_p (rb : rnd) (mem : list Z) (so l mo mlen ko : Z) : M (Z * list Z * Z) :=
  if (mlen <=? 0) || (64 <? mlen) then mret (-1, mem, l) else                  (* L472 *)
  let F := zlen mem in
  let fr := mem ++ zeros 128 ++ zeros 2420 ++ zeros 168 ++ loc 64 in           (* L479-484 *)
  sk1 <- copy (zeros 64) 0 fr ko 64 ;;                                         (* L488-495 *)
  sk2 <- copy (zeros 2560) 0 fr (ko + 64) 2560 ;;
  let '(r, bs) := rb 40 in                                                     (* L498 *)
  nonce <- copy (loc 40) 0 bs 0 40 ;;
  if negb (r =? 0) then mret (-1, slice fr 0 F, l) else
  fr <- copy fr (F + 2548) nonce 0 40 ;;                                       (* L502 *)
  fr <- move fr (F + 2588) mo mlen ;;                                          (* L506 *)
  fr <- move fr (F + 2588 + mlen) (ko + 4000) 64 ;;                            (* L510 *)
  hin <- rdrange fr (F + 2548) (40 + mlen + 64) ;;
  hash <- Sponge.sha3_512 (loc 64) hin (40 + mlen + 64) ;;                     (* L515 *)
  fr <- copy fr (F + 2716) hash 0 64 ;;
  '(r1, l1, fr) <- TweetBuf.ed_sign_c fr F (F + 2716) 64 sk1 ;;                (* L518 *)
  '(r2, fr, l2) <- sign_signature_h loc fuel fr (F + 128) (F + 2716) 64 sk2 ;; (* L519 *)
  if negb (r1 =? 0) then mret (-2, slice fr 0 F, l) else
  if negb (r2 =? 0) then mret (-3, slice fr 0 F, l) else
  if negb (l1 =? 128) then mret (-4, slice fr 0 F, l) else
  if negb (l2 =? 2420) then mret (-5, slice fr 0 F, l) else
  fr <- wr fr so 1 ;;                                                          (* L538 *)
  fr <- wr fr (so + 1) (u8 mlen) ;;
  fr <- move fr (so + 2) F 64 ;;                                               (* L542 *)
  fr <- move fr (so + 66) (F + 128) 2420 ;;                                    (* L547 *)
  fr <- copy fr (so + 2486) nonce 0 40 ;;                                      (* L552 *)
  fr <- move fr (so + 2526) mo mlen ;;                                         (* L557 *)
  mret (0, slice fr 0 F, 2526 + mlen).                                         (* L561 *)

(** hybrid.c L566-667.  Local arrays: msgFromSignature1[128] at [F], sig1[128] at [F + 128],
    sig2[2420] at [F + 256], hybridMsg[168] at [F + 2676], hybridMessageHash[64] at [F + 2844]. *)
Definition open_compact_p (mem : list Z) (mo l so smlen po : Z) : M (Z * list Z * Z) :=
  if (smlen <? 2527) || (2590 <? smlen) then mret (-1, mem, l) else            (* L570-573 *)
  id <- rd 0 mem so ;;
  if negb (id =? 1) then mret (-2, mem, l) else
  msgLen <- rd 0 mem (so + 1) ;;
  if (msgLen <=? 0) || (64 <? msgLen) then mret (-3, mem, l) else
  if negb (smlen =? 2526 + msgLen) then mret (-4, mem, l) else                 (* L585 *)
  let F := zlen mem in
  let fr := mem ++ zeros 128 ++ zeros 128 ++ zeros 2420 ++ zeros 168 ++ loc 64 in (* L589-596 *)
  fr <- move fr (F + 2676) (so + 2486) 40 ;;                                   (* L599 *)
  fr <- move fr (F + 2716) (so + 2526) msgLen ;;                               (* L602 *)
  fr <- move fr (F + 2716 + msgLen) (po + 1344) 64 ;;                          (* L605 *)
  hin <- rdrange fr (F + 2676) (40 + msgLen + 64) ;;
  hash <- Sponge.sha3_512 (loc 64) hin (40 + msgLen + 64) ;;                   (* L610 *)
  fr <- copy fr (F + 2844) hash 0 64 ;;
  fr <- move fr (F + 128) (so + 2) 64 ;;                                       (* L614 *)
  fr <- move fr (F + 192) (F + 2844) 64 ;;                                     (* L619 *)
  pk1 <- copy (zeros 32) 0 fr po 32 ;;                                         (* L624 *)
  '(r1, l1, fr) <- TweetBuf.ed_open_c fr F (F + 128) 128 pk1 ;;                (* L628 *)
  if negb (r1 =? 0) then mret (-5, slice fr 0 F, l) else
  if negb (l1 =? 64) then mret (-6, slice fr 0 F, l) else                      (* L633 *)
  eq <- same_from 64 0 fr F (F + 2844) ;;                                      (* L638 *)
  if negb (eq : bool) then mret (-7, slice fr 0 F, l) else
  fr <- move fr (F + 256) (so + 66) 2420 ;;                                    (* L645 *)
  pk2 <- copy (zeros 1312) 0 fr (po + 32) 1312 ;;                              (* L650 *)
  r2 <- sign_verify_h loc fuel fr (F + 256) 2420 (F + 2844) 64 pk2 ;;          (* L654 *)
  if negb (r2 =? 0) then mret (-8, slice fr 0 F, l) else
  fr <- move fr mo (so + 2526) msgLen ;;                                       (* L660 *)
  mret (0, slice fr 0 F, msgLen).

(** hybrid.c L669-696: msgFromSignature1[64] at [F] *)
Definition verify_compact_p (mem : list Z) (mo mlen so smlen po : Z) : M Z :=
  if (mlen <=? 0) || (64 <? mlen) then mret (-1) else
  let F := zlen mem in
  '(r, fr, len) <- open_compact_p (mem ++ zeros 64) F 0 so smlen po ;;
  if negb (r =? 0) then mret (-2) else
  if negb (len =? mlen) then mret (-3) else
  eq <- same_from (Z.to_nat (i32 len)) 0 fr F mo ;;
  mret (if eq : bool then 0 else -4).

(** hybrid.c L698-711: the public key is read from [mem + po] *)
Definition verify_dilithium_p (mem : list Z) (mo mlen so smlen po : Z) : M Z :=
  if (mlen <=? 0) || (64 <? mlen) then mret (-1) else
  pk <- rdrange mem po 1312 ;;
  r <- sign_verify_h loc fuel mem so smlen mo mlen pk ;;                       (* L705 *)
  mret (if negb (r =? 0) then -2 else 0).
End Prog.
