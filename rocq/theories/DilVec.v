(** Models of dilithium2/polyvec.c and dilithium2/packing.c (K = L = 4).

    A vector is a list of four polynomials; the for-loops over the components are
    [mapM]/[map2M].  Sampling functions return [None] when the given fuel is used up. *)
From Verif Require Import Base SpongePure DilReduce Tab DilNtt DilPoly.

(** Sequencing of possibly non-terminating steps *)
Definition obind {A B} (x : option A) (k : A -> option B) : option B := match x with Some a => k a | None => None end.
Fixpoint mapO {A B} (f : A -> option B) (l : list A) : option (list B) :=
  match l with [] => Some [] | x :: l => obind (f x) (fun y => obind (mapO f l) (fun r => Some (y :: r))) end.

Notation poly := (list Z) (only parsing).
Notation vec := (list (list Z)) (only parsing).

(** polyvec.c L16-24 *)
Definition matrix_expand (fuel : nat) (rho : list Z) : option (list vec) :=
  mapO (fun i => mapO (fun j => poly_uniform fuel rho (u16 (Z.shiftl i 8 + j))) [0; 1; 2; 3]) [0; 1; 2; 3].
(** polyvec.c L38-44 and L164-170 *)
Definition vec_uniform_eta (fuel : nat) (seed : list Z) (nonce : Z) : option vec :=
  mapO (fun i => poly_uniform_eta fuel seed (u16 (nonce + i))) [0; 1; 2; 3].
(** polyvec.c L46-52 *)
Definition vec_uniform_gamma1 (seed : list Z) (nonce : Z) : vec :=
  map (fun i => poly_uniform_gamma1 seed (u16 (4 * nonce + i))) [0; 1; 2; 3].
(** polyvec.c L54-60, L180-186 *)
Definition vec_reduce (v : vec) : outcome vec := mapM poly_reduce v.
(** polyvec.c L196-202 *)
Definition vec_caddq (v : vec) : outcome vec := mapM poly_caddq v.
(** polyvec.c L72-78, L214-220 *)
Definition vec_add (u v : vec) : outcome vec := map2M poly_add u v.
(** polyvec.c L233-239 *)
Definition vec_sub (u v : vec) : outcome vec := map2M poly_sub u v.
(** polyvec.c L249-255 *)
Definition vec_shiftl (v : vec) : outcome vec := mapM poly_shiftl v.
(** polyvec.c L88-94, L265-271 *)
Definition vec_ntt (v : vec) : outcome vec := mapM poly_ntt v.
(** polyvec.c L96-102, L282-288 *)
Definition vec_invntt_tomont (v : vec) : outcome vec := mapM poly_invntt_tomont v.
(** polyvec.c L104-110, L290-296 *)
Definition vec_pointwise_poly (a : poly) (v : vec) : outcome vec := mapM (poly_pointwise_montgomery a) v.
(** polyvec.c L123-134: w = u0*v0; for i = 1..3: w += ui*vi *)
Fixpoint acc_loop (w : poly) (u v : vec) : outcome poly :=
  match u, v with
  | a :: u, b :: v => t <- poly_pointwise_montgomery a b ;; w <- poly_add w t ;; acc_loop w u v
  | _, _ => Ret w
  end.
Definition vec_pointwise_acc (u v : vec) : outcome poly :=
  match u, v with
  | a :: u, b :: v => w <- poly_pointwise_montgomery a b ;; acc_loop w u v
  | _, _ => Undef
  end.
(** polyvec.c L26-32 *)
Definition matrix_pointwise (mat : list vec) (v : vec) : outcome vec := mapM (fun row => vec_pointwise_acc row v) mat.
(** polyvec.c L148-158, L310-320 *)
Fixpoint vec_chknorm (v : vec) (B : Z) : outcome Z :=
  match v with
  | [] => Ret 0
  | p :: v => r <- poly_chknorm p B ;; if r =? 0 then vec_chknorm v B else Ret 1
  end.
(** polyvec.c L336-342, L359-365: results (v1, v0) *)
Definition vec_power2round (v : vec) : outcome (vec * vec) :=
  r <- mapM poly_power2round v ;; Ret (map fst r, map snd r).
Definition vec_decompose (v : vec) : outcome (vec * vec) :=
  r <- mapM poly_decompose v ;; Ret (map fst r, map snd r).
(** polyvec.c L378-390 *)
Definition vec_make_hint (v0 v1 : vec) : outcome (vec * Z) :=
  r <- map2M poly_make_hint v0 v1 ;; Ret (map fst r, fold_left (fun s x => u32 (s + x)) (map snd r) 0).
(** polyvec.c L400-406 *)
Definition vec_use_hint (v h : vec) : outcome vec := map2M poly_use_hint v h.
(** polyvec.c L408-414 *)
Definition vec_pack_w1 (v : vec) : outcome (list Z) := r <- mapM polyw1_pack v ;; Ret (concat r).

(** ** packing.c *)
(** The [n] consecutive blocks of [len] bytes starting at offset [off] *)
Definition blocks (b : list Z) (off len : Z) : list (list Z) := map (fun i => slice b (off + i * len) len) [0; 1; 2; 3].
(** packing.c L15-28, L39-52 *)
Definition pack_pk (rho : list Z) (t1 : vec) : outcome (list Z) :=
  r <- mapM polyt1_pack t1 ;; Ret (rho ++ concat r).
Definition unpack_pk (pk : list Z) : list Z * vec := (slice pk 0 32, map polyt1_unpack (blocks pk 32 320)).
(** packing.c L67-104: rho, key, tr, s1, s2, t0 *)
Definition pack_sk (rho tr key : list Z) (t0 s1 s2 : vec) : outcome (list Z) :=
  a <- mapM polyeta_pack s1 ;; b <- mapM polyeta_pack s2 ;; c <- mapM polyt0_pack t0 ;;
  Ret (rho ++ key ++ tr ++ concat a ++ concat b ++ concat c).
(** packing.c L119-156; result (rho, tr, key, t0, s1, s2) *)
Definition unpack_sk (sk : list Z) : list Z * list Z * list Z * vec * vec * vec :=
  (slice sk 0 32, slice sk 64 64, slice sk 32 32,
   map polyt0_unpack (blocks sk 896 416), map polyeta_unpack (blocks sk 128 96), map polyeta_unpack (blocks sk 512 96)).

(** packing.c L184-198: the hint area is the last OMEGA + K = 84 bytes of the signature;
    a write past it is a write past the signature. *)
Definition hint_pack_poly (h : poly) (st : list Z * Z) : outcome (list Z * Z) :=
  for_loop 256 (fun j '(hb, k) =>
    c <- rd 0 h j ;;
    if c =? 0 then Ret (hb, k) else hb <- wr hb k (u8 j) ;; Ret (hb, k + 1)) st.
Fixpoint hint_pack_loop (i : Z) (h : vec) (st : list Z * Z) : outcome (list Z * Z) :=
  match h with
  | [] => Ret st
  | p :: h => '(hb, k) <- hint_pack_poly p st ;; hb <- wr hb (80 + i) (u8 k) ;; hint_pack_loop (i + 1) h (hb, k)
  end.
Definition hint_pack (h : vec) : outcome (list Z) := '(hb, _) <- hint_pack_loop 0 h (zeros 84, 0) ;; Ret hb.
(** packing.c L168-199 *)
Definition pack_sig (c : list Z) (z h : vec) : outcome (list Z) :=
  a <- mapM polyz_pack z ;; hb <- hint_pack h ;; Ret (c ++ concat a ++ hb).

(** packing.c L238-244: positions j = k .. cnt-1 of one polynomial; None: return 1 *)
Definition hint_unpack_poly (hb : list Z) (k cnt : Z) : outcome (option poly) :=
  for_from (Z.to_nat (cnt - k)) k (fun j s =>
    match s with
    | None => Ret None
    | Some h =>
        bad <- (if k <? j then a <- rd 0 hb j ;; b <- rd 0 hb (j - 1) ;; Ret (a <=? b) else Ret false) ;;
        if bad : bool then Ret None else p <- rd 0 hb j ;; h <- wr h p 1 ;; Ret (Some h)
    end) (Some (zeros 256)).
(** packing.c L229-247 *)
Fixpoint hint_unpack_loop (n : nat) (i : Z) (hb : list Z) (k : Z) : outcome (option (vec * Z)) :=
  match n with
  | O => Ret (Some ([], k))
  | S n =>
      cnt <- rd 0 hb (80 + i) ;;
      if (cnt <? k) || (80 <? cnt) then Ret None
      else
        h <- hint_unpack_poly hb k cnt ;;
        match h with
        | None => Ret None
        | Some h =>
            r <- hint_unpack_loop n (i + 1) hb cnt ;;
            match r with None => Ret None | Some (hs, k) => Ret (Some (h :: hs, k)) end
        end
  end.
(** packing.c L229-257 *)
Definition hint_unpack (hb : list Z) : outcome (option vec) :=
  r <- hint_unpack_loop 4 0 hb 0 ;;
  match r with
  | None => Ret None
  | Some (hs, k) =>
      ok <- for_from (Z.to_nat (80 - k)) k (fun j ok => c <- rd 0 hb j ;; Ret (ok && (c =? 0))) true ;;
      Ret (if ok : bool then Some hs else None)
  end.
(** packing.c L214-260; None: the function returns 1 *)
Definition unpack_sig (sig : list Z) : outcome (option (list Z * vec * vec)) :=
  h <- hint_unpack (slice sig 2336 84) ;;
  Ret (match h with
       | None => None
       | Some h => Some (slice sig 0 32, map polyz_unpack (blocks sig 32 576), h)
       end).
