(** tweetnacl/tweetnacl.c, crypto_sign and crypto_sign_open on one memory [mem] that holds both the
    message and the signed message, at offsets that may overlap.  Every loop that copies bytes is
    the loop of the C code, in its order.  The key arrays are separate. *)
From Verif Require Import Base Tweet.

(** L728-758 crypto_sign: signed message at [mem + so], message at [mem + mo], [n] bytes.
    Result: return value, *smlen, memory. *)
Definition ed_sign_c (mem : list Z) (so mo n : Z) (sk : list Z) : outcome (Z * Z * list Z) :=
  d <- crypto_hash sk 0 32 ;;                                                  (* L734 *)
  d <- clamp d ;;                                                              (* L735-737 *)
  let smlen := u64 (n + 64) in                                                 (* L739 *)
  mem <- for_loop n (fun i mem => b <- rd 0 mem (mo + i) ;; wr mem (so + 64 + i) b) mem ;; (* L740 *)
  mem <- copy mem (so + 32) d 32 32 ;;                                         (* L741 *)
  r <- crypto_hash mem (so + 32) (u64 (n + 32)) ;;                             (* L743 *)
  r <- ed_reduce r ;;
  p <- scalarbase r ;;
  R <- ed_pack p ;;
  mem <- copy mem so R 0 32 ;;                                                 (* L746 *)
  mem <- copy mem (so + 32) sk 32 32 ;;                                        (* L748 *)
  h <- crypto_hash mem so (u64 (n + 64)) ;;                                    (* L749 *)
  h <- ed_reduce h ;;
  x <- for_loop 32 (fun i x => b <- rd 0 r i ;; wr x i b) (zeros 64) ;;        (* L752-753 *)
  x <- for_loop 32 (fun i x => for_loop 32 (fun j x =>
         hi <- rd 0 h i ;; dj <- rd 0 d j ;; u <- rd 0 x (i + j) ;;
         wr x (i + j) (i64 (u64 (u + u64 (hi * dj))))) x) x ;;                 (* L754 *)
  S <- modL x ;;
  mem <- copy mem (so + 32) S 0 32 ;;                                          (* L755 *)
  Ret (0, smlen, mem).

(** L796-825 crypto_sign_open: message buffer at [mem + mo], signed message at [mem + so], [n] bytes.
    Result: return value, *mlen, memory. *)
Definition ed_open_c (mem : list Z) (mo so n : Z) (pk : list Z) : outcome (Z * Z * list Z) :=
  let mlen := u64 (-1) in                                                      (* L802 *)
  if n <? 64 then Ret (-1, mlen, mem)                                          (* L803 *)
  else
  q <- unpackneg pk ;;
  match q with
  | None => Ret (-1, mlen, mem)                                                (* L805 *)
  | Some q =>
    if 2 ^ 31 <=? n then Undef                                                 (* int i *)
    else
    mem <- for_loop n (fun i mem => b <- rd 0 mem (so + i) ;; wr mem (mo + i) b) mem ;; (* L807 *)
    mem <- copy mem (mo + 32) pk 0 32 ;;                                       (* L808 *)
    h <- crypto_hash mem mo n ;;                                               (* L809 *)
    h <- ed_reduce h ;;
    p <- scalarmult q h ;;
    s <- rdrange mem (so + 32) 32 ;;
    q <- scalarbase s ;;                                                       (* L813 *)
    p <- ed_add p q ;;
    t <- ed_pack p ;;
    let n := n - 64 in
    r <- rdrange mem so 32 ;;
    v <- crypto_verify_32 r t ;;                                               (* L818 *)
    if negb (v =? 0) then mem <- for_loop n (fun i mem => wr mem (mo + i) 0) mem ;; Ret (-1, mlen, mem)
    else mem <- for_loop n (fun i mem => b <- rd 0 mem (so + (64 + i)) ;; wr mem (mo + i) b) mem ;; (* L823 *)
         Ret (0, n, mem)
  end.
