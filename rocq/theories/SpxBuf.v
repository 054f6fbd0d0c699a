(** The functions of sphincs/*.c with the arrays and the memory layout of the code.

    Spx.v passes nodes, digests and address updates as values.  Here every local array has
    its declared size and arbitrary initial contents, every write goes through an offset and
    is checked, hashing in place is hashing in place, and every hash call is the call the code
    makes ([Sponge.v]).  One memory [mem] holds the signature buffer and the message, so they
    may overlap.  [loc n] and [locw n] are what an uninitialised array of [n] bytes or of [n]
    32-bit words happens to contain. *)
From Verif Require Import Base Sponge Spx DilBuf.
Local Open Scope Z_scope.

Section Buf.
Variables loc locw : Z -> list Z.

(** ** utils.c *)

(** utils.c L13-22: [i] counts down from [outlen - 1] *)
Definition ull_to_bytes_c (out : list Z) (ooff outlen inn : Z) : outcome (list Z) :=
  '(out, _) <- for_loop outlen (fun k '(out, inn) =>
                 out <- wr out (ooff + (outlen - 1 - k)) (Z.land inn 0xff) ;;
                 Ret (out, Z.shiftr inn 8)) (out, inn) ;;
  Ret out.
(** utils.c L24-29 *)
Definition u32_to_bytes_c (out : list Z) (ooff inn : Z) : outcome (list Z) :=
  out <- wr out ooff (u8 (Z.shiftr inn 24)) ;;
  out <- wr out (ooff + 1) (u8 (Z.shiftr inn 16)) ;;
  out <- wr out (ooff + 2) (u8 (Z.shiftr inn 8)) ;;
  wr out (ooff + 3) (u8 inn).
(** utils.c L34-42 *)
Definition bytes_to_ull_c (inn : list Z) (ioff inlen : Z) : outcome Z :=
  for_loop inlen (fun i retval =>
    b <- rd 0 inn (ioff + i) ;;
    Ret (Z.lor retval (u64 (Z.shiftl b (8 * (inlen - 1 - i)))))) 0.

(** ** address.c; addresses are arrays of 32 bytes *)
Definition set_layer_addr_c (a : list Z) (layer : Z) := wr a 3 (u8 layer).              (* L11-13 *)
Definition set_tree_addr_c (a : list Z) (tree : Z) := ull_to_bytes_c a 8 8 tree.        (* L18-20 *)
Definition set_type_c (a : list Z) (type : Z) := wr a 19 (u8 type).                     (* L28-30 *)
Definition copy_subtree_addr_c (out inn : list Z) := copy out 0 inn 0 16.               (* L36-38 *)
Definition set_keypair_addr_c (a : list Z) (kp : Z) := wr a 23 (u8 kp).                 (* L46-48 *)
Definition copy_keypair_addr_c (out inn : list Z) :=                                    (* L54-57 *)
  out <- copy out 0 inn 0 16 ;;
  b <- rd 0 inn 23 ;;
  wr out 23 b.
Definition set_chain_addr_c (a : list Z) (c : Z) := wr a 27 (u8 c).                     (* L63-65 *)
Definition set_hash_addr_c (a : list Z) (h : Z) := wr a 31 (u8 h).                      (* L71-73 *)
Definition set_tree_height_c (a : list Z) (h : Z) := wr a 27 (u8 h).                    (* L81-83 *)
Definition set_tree_index_c (a : list Z) (i : Z) := u32_to_bytes_c a 28 i.              (* L89-91 *)

(** ** hash_shake.c and thash_shake_simple.c *)

(** thash_shake_simple.c L15-24: [out + ooff], [inp + ioff] may be the same memory *)
Definition thash_c (ctx : spx_ctx) (out : list Z) (ooff : Z) (inp : list Z) (ioff inblocks : Z) (addr : list Z)
  : outcome (list Z) :=
  buf <- copy (loc (64 + inblocks * 32)) 0 (pub_seed ctx) 0 32 ;;              (* L19 *)
  buf <- copy buf 32 addr 0 32 ;;
  buf <- copy buf 64 inp ioff (inblocks * 32) ;;
  shake256_at out ooff 32 buf 0 (64 + inblocks * 32).                          (* L23 *)
(** hash_shake.c L14-23 *)
Definition prf_addr_c (ctx : spx_ctx) (out : list Z) (ooff : Z) (addr : list Z) : outcome (list Z) :=
  buf <- copy (loc 96) 0 (pub_seed ctx) 0 32 ;;
  buf <- copy buf 32 addr 0 32 ;;
  buf <- copy buf 64 (sk_seed ctx) 0 32 ;;
  shake256_at out ooff 32 buf 0 96.                                            (* L22 *)
(** hash_shake.c L29-43: R is written to [mem + roff], the message is at [mem + mo] *)
Definition gen_message_random_c (mem : list Z) (roff : Z) (sk : list Z) (skoff : Z) (optrand : list Z) (mo mlen : Z)
  : outcome (list Z) :=
  sk_prf <- rdrange sk skoff 32 ;;
  opt <- rdrange optrand 0 32 ;;
  m <- rdrange mem mo mlen ;;
  shake256_pieces mem roff 32 [sk_prf; opt; m].
(** hash_shake.c L50-82: R is at [mem + roff], the message at [mem + mo], the public key at
    [pk + pkoff].  Result: the digest array, the tree and the leaf index. *)
Definition hash_message_c (digest0 mem : list Z) (roff : Z) (pk : list Z) (pkoff mo mlen : Z)
  : outcome (list Z * Z * Z) :=
  R <- rdrange mem roff 32 ;;
  pkb <- rdrange pk pkoff 64 ;;
  m <- rdrange mem mo mlen ;;
  buf <- shake256_pieces (loc 49) 0 49 [R; pkb; m] ;;                          (* L65-71 *)
  digest <- copy digest0 0 buf 0 40 ;;                                         (* L73 *)
  tree <- bytes_to_ull_c buf 40 8 ;;                                           (* L76 *)
  let tree := Z.land tree (Z.shiftr (2 ^ 64 - 1) (64 - 64)) in
  leaf <- bytes_to_ull_c buf 48 1 ;;                                           (* L80 *)
  let leaf := Z.land (u32 leaf) (Z.shiftr (2 ^ 32 - 1) (32 - 4)) in
  Ret (digest, tree, leaf).

(** ** wots.c *)

(** wots.c L25-38: [i] from [start], hashing [out] in place *)
Fixpoint gen_chain_loop_c (ctx : spx_ctx) (fuel : nat) (i stop : Z) (out : list Z) (ooff : Z) (addr : list Z)
  : outcome (list Z * list Z) :=
  if (i <? stop) && (i <? 16) then
    match fuel with
    | O => Undef
    | S fuel =>
        addr <- set_hash_addr_c addr i ;;
        out <- thash_c ctx out ooff out ooff 1 addr ;;                         (* L36 *)
        gen_chain_loop_c ctx fuel (i + 1) stop out ooff addr
    end
  else Ret (out, addr).
Definition gen_chain_c (ctx : spx_ctx) (out : list Z) (ooff : Z) (inp : list Z) (ioff start steps : Z) (addr : list Z)
  : outcome (list Z * list Z) :=
  out <- copy out ooff inp ioff 32 ;;                                          (* L31 *)
  gen_chain_loop_c ctx 16 start (u32 (start + steps)) out ooff addr.

(** wots.c L45-63: [output + ooff] receives the digits of [input + ioff] *)
Definition base_w_c (output : list Z) (ooff out_len : Z) (input : list Z) (ioff : Z) : outcome (list Z) :=
  '(inn, out, total, bits, output) <-
    for_loop out_len (fun consumed '(inn, out, total, bits, output) =>
      '(inn, total, bits) <-
        (if bits =? 0 then b <- rd 0 input (ioff + inn) ;; Ret (inn + 1, b, bits + 8)
         else Ret (inn, total, bits)) ;;
      let bits := bits - 4 in
      output <- wr output (ooff + out) (Z.land (Z.shiftr total bits) 15) ;;    (* L60 *)
      Ret (inn, out + 1, total, bits, output))
      (0, 0, 0, 0, output) ;;
  Ret output.
(** wots.c L66-82: reads lengths[0..63], writes lengths[64..66] *)
Definition wots_checksum_c (lengths : list Z) : outcome (list Z) :=
  csum <- for_loop 64 (fun i csum => m <- rd 0 lengths i ;; Ret (u32 (csum + u32 (15 - m)))) 0 ;;
  let csum := u32 (Z.shiftl csum 4) in
  csum_bytes <- ull_to_bytes_c (loc 2) 0 2 csum ;;                             (* L80 *)
  base_w_c lengths 64 3 csum_bytes 0.
(** wots.c L85-88 *)
Definition chain_lengths_c (lengths msg : list Z) (moff : Z) : outcome (list Z) :=
  lengths <- base_w_c lengths 0 64 msg moff ;;
  wots_checksum_c lengths.
(** wots.c L95-108: the key is written to [pk], the signature is at [mem + off] *)
Definition wots_pk_from_sig_c (ctx : spx_ctx) (pk mem : list Z) (off : Z) (msg addr : list Z)
  : outcome (list Z * list Z) :=
  lengths <- chain_lengths_c (locw 67) msg 0 ;;
  for_loop 67 (fun i '(pk, addr) =>
    addr <- set_chain_addr_c addr i ;;
    d <- rd 0 lengths i ;;
    gen_chain_c ctx pk (i * 32) mem (off + i * 32) d (u32 (15 - d)) addr) (pk, addr).

(** ** wotsx1.c L18-76.  [struct leaf_info_x1]: the signature at [mem + sigoff], the signing
    leaf, the steps; its two addresses are the state [st].  The leaf goes to [dest + doff]. *)
Fixpoint leaf_chain_c (ctx : spx_ctx) (n : nat) (k wots_k dstoff : Z) (mem pk_buffer : list Z) (boff : Z) (leaf_addr : list Z)
  : outcome (list Z * list Z * list Z) :=
  mem <- (if k =? wots_k then copy mem dstoff pk_buffer boff 32 else Ret mem) ;; (* L58-60 *)
  match n with
  | O => Ret (mem, pk_buffer, leaf_addr)                                       (* L63-65 *)
  | S n =>
      leaf_addr <- set_hash_addr_c leaf_addr k ;;
      pk_buffer <- thash_c ctx pk_buffer boff pk_buffer boff 1 leaf_addr ;;    (* L70 *)
      leaf_chain_c ctx n (k + 1) wots_k dstoff mem pk_buffer boff leaf_addr
  end.
Definition wots_gen_leafx1_c (ctx : spx_ctx) (sigoff sign_leaf : Z) (steps : list Z)
    (dest : list Z) (doff leaf_idx : Z) (mem : list Z) (st : list Z * list Z)
  : outcome (list Z * list Z * (list Z * list Z)) :=
  let '(leaf_addr, pk_addr) := st in
  let wots_k_mask := if leaf_idx =? sign_leaf then 0 else 2 ^ 32 - 1 in        (* L29-36 *)
  leaf_addr <- set_keypair_addr_c leaf_addr leaf_idx ;;
  pk_addr <- set_keypair_addr_c pk_addr leaf_idx ;;
  '(mem, pk_buffer, leaf_addr) <-
    for_loop 67 (fun i '(mem, pk_buffer, leaf_addr) =>
      s <- rd 0 steps i ;;
      let wots_k := Z.lor s wots_k_mask in
      leaf_addr <- set_chain_addr_c leaf_addr i ;;
      leaf_addr <- set_hash_addr_c leaf_addr 0 ;;
      leaf_addr <- set_type_c leaf_addr ADDR_WOTSPRF ;;
      pk_buffer <- prf_addr_c ctx pk_buffer (i * 32) leaf_addr ;;              (* L50 *)
      leaf_addr <- set_type_c leaf_addr ADDR_WOTS ;;
      leaf_chain_c ctx 15 0 wots_k (sigoff + i * 32) mem pk_buffer (i * 32) leaf_addr)
      (mem, loc 2144, leaf_addr) ;;
  dest <- thash_c ctx dest doff pk_buffer 0 67 pk_addr ;;                      (* L75 *)
  Ret (dest, mem, (leaf_addr, pk_addr)).

(** ** utilsx1.c L24-100.  The callback writes the leaf to [current + 32]. *)
Section TreeHash.
Context {T : Type}.
Variable ctx : spx_ctx.
Variable gen_leaf : list Z -> Z -> Z -> list Z -> T -> outcome (list Z * list Z * T).

(** L52-94; [inl] is the [return] of L58 with the root buffer, [inr] the [break] of L78 *)
Fixpoint treehash_up_c (n : nat) (h idx max_idx ioff iidx ileaf aoff : Z) (root : list Z) (roff : Z)
    (current stack tree_addr mem : list Z)
  : outcome (list Z * (list Z * list Z) + Z * (list Z * list Z * list Z)) :=
  match n with
  | O => root <- copy root roff current 32 32 ;; Ret (inl (root, (tree_addr, mem))) (* L57 *)
  | S n =>
      mem <- (if Z.lxor iidx ileaf =? 1
              then copy mem (aoff + h * 32) current 32 32 else Ret mem) ;;     (* L65-69 *)
      if (Z.land iidx 1 =? 0) && (idx <? max_idx)
      then Ret (inr (h, (current, tree_addr, mem)))
      else
        let ioff := Z.shiftr ioff 1 in
        tree_addr <- set_tree_height_c tree_addr (h + 1) ;;
        tree_addr <- set_tree_index_c tree_addr (u32 (iidx / 2 + ioff)) ;;
        current <- copy current 0 stack (h * 32) 32 ;;                         (* L90 *)
        current <- thash_c ctx current 32 current 0 2 tree_addr ;;             (* L91-93 *)
        treehash_up_c n (h + 1) idx max_idx ioff (Z.shiftr iidx 1) (Z.shiftr ileaf 1) aoff
                      root roff current stack tree_addr mem
  end.
(** L39-99.  Result: root buffer, tree address, memory, state of the callback *)
Fixpoint treehash_loop_c (fuel : nat) (idx leaf_idx idx_offset tree_height aoff : Z) (root : list Z) (roff : Z)
    (stack tree_addr mem : list Z) (st : T) : outcome (list Z * list Z * list Z * T) :=
  match fuel with
  | O => Undef
  | S fuel =>
      let max_idx := u32 (Z.shiftl 1 tree_height - 1) in
      '(current, mem, st) <- gen_leaf (loc 64) 32 (u32 (idx + idx_offset)) mem st ;; (* L40-44 *)
      r <- treehash_up_c (Z.to_nat tree_height) 0 idx max_idx idx_offset idx leaf_idx aoff
                         root roff current stack tree_addr mem ;;
      match r with
      | inl (root, (tree_addr, mem)) => Ret (root, tree_addr, mem, st)
      | inr (h, (current, tree_addr, mem)) =>
          stack <- copy stack (h * 32) current 32 32 ;;                        (* L98 *)
          treehash_loop_c fuel (u32 (idx + 1)) leaf_idx idx_offset tree_height aoff root roff
                          stack tree_addr mem st
      end
  end.
Definition treehashx1_c (root : list Z) (roff aoff leaf_idx idx_offset tree_height : Z) (tree_addr mem : list Z) (st : T) :=
  treehash_loop_c (Z.to_nat (2 ^ tree_height)) 0 leaf_idx idx_offset tree_height aoff root roff
                  (loc (tree_height * 32)) tree_addr mem st.
End TreeHash.

(** ** utils.c L48-90: the path is at [mem + off], the leaf at [leaf + 0] *)
Definition compute_root_c (ctx : spx_ctx) (root : list Z) (roff : Z) (leaf : list Z) (leaf_idx idx_offset : Z)
    (mem : list Z) (off tree_height : Z) (addr : list Z) : outcome (list Z * list Z) :=
  buffer <- (if negb (Z.land leaf_idx 1 =? 0)
             then b <- copy (loc 64) 32 leaf 0 32 ;; copy b 0 mem off 32        (* L58-59 *)
             else b <- copy (loc 64) 0 leaf 0 32 ;; copy b 32 mem off 32) ;;    (* L61-62 *)
  '(buffer, leaf_idx, idx_offset, addr) <-
    for_loop (u32 (tree_height - 1)) (fun i '(buffer, leaf_idx, idx_offset, addr) =>
      let leaf_idx := Z.shiftr leaf_idx 1 in
      let idx_offset := Z.shiftr idx_offset 1 in
      addr <- set_tree_height_c addr (i + 1) ;;
      addr <- set_tree_index_c addr (u32 (leaf_idx + idx_offset)) ;;
      buffer <- (if negb (Z.land leaf_idx 1 =? 0)
                 then b <- thash_c ctx buffer 32 buffer 0 2 addr ;; copy b 0 mem (off + (i + 1) * 32) 32   (* L75-76 *)
                 else b <- thash_c ctx buffer 0 buffer 0 2 addr ;; copy b 32 mem (off + (i + 1) * 32) 32) ;; (* L78-79 *)
      Ret (buffer, leaf_idx, idx_offset, addr))
      (buffer, leaf_idx, idx_offset, addr) ;;
  let leaf_idx := Z.shiftr leaf_idx 1 in
  let idx_offset := Z.shiftr idx_offset 1 in
  addr <- set_tree_height_c addr tree_height ;;
  addr <- set_tree_index_c addr (u32 (leaf_idx + idx_offset)) ;;
  root <- thash_c ctx root roff buffer 0 2 addr ;;                             (* L89 *)
  Ret (root, addr).

(** ** merkle.c L18-42: signature at [mem + off]; [root + roff] is the message on entry and the
    tree root on return *)
Definition merkle_sign_c (ctx : spx_ctx) (mem : list Z) (off : Z) (root : list Z) (roff : Z)
    (wots_addr tree_addr : list Z) (idx_leaf : Z) : outcome (list Z * list Z * list Z) :=
  steps <- chain_lengths_c (locw 67) root roff ;;                               (* L27 *)
  tree_addr <- set_type_c tree_addr ADDR_HASHTREE ;;
  pk_addr <- set_type_c (zeros 32) ADDR_WOTSPK ;;
  leaf_addr <- copy_subtree_addr_c (zeros 32) wots_addr ;;
  pk_addr <- copy_subtree_addr_c pk_addr wots_addr ;;
  '(root, tree_addr, mem, _) <-
    treehashx1_c ctx (wots_gen_leafx1_c ctx off idx_leaf steps) root roff (off + 2144) idx_leaf 0 4
                 tree_addr mem (leaf_addr, pk_addr) ;;
  Ret (mem, root, tree_addr).
(** merkle.c L45-59 *)
Definition merkle_gen_root_c (ctx : spx_ctx) (root : list Z) (roff : Z) : outcome (list Z) :=
  top_tree_addr <- set_layer_addr_c (zeros 32) 16 ;;
  wots_addr <- set_layer_addr_c (zeros 32) 16 ;;
  '(_, root, _) <- merkle_sign_c ctx (loc 2272) 0 root roff wots_addr top_tree_addr (2 ^ 32 - 1) ;;
  Ret root.

(** ** fors.c *)

(** fors.c L49-60: [indices[i]] is cleared and then updated bit by bit *)
Definition message_to_indices_c (indices m : list Z) : outcome (list Z) :=
  '(offset, indices) <-
    for_loop 35 (fun i '(offset, indices) =>
      indices <- wr indices i 0 ;;                                             (* L54 *)
      for_loop 9 (fun j '(offset, indices) =>
        b <- rd 0 m (Z.shiftr offset 3) ;;
        x <- rd 0 indices i ;;
        let bit := Z.land (Z.shiftr b (Z.land (Z.lnot offset) 7)) 1 in
        indices <- wr indices i (Z.lxor x (Z.shiftl bit (9 - 1 - j))) ;;       (* L56 *)
        Ret (offset + 1, indices)) (offset, indices)) (0, indices) ;;
  Ret indices.
(** fors.c L28-42: the leaf is generated and hashed in place at [leaf + loff] *)
Definition fors_gen_leafx1_c (ctx : spx_ctx) (leaf : list Z) (loff addr_idx : Z) (mem fors_leaf_addr : list Z)
  : outcome (list Z * list Z * list Z) :=
  a <- set_tree_index_c fors_leaf_addr addr_idx ;;
  a <- set_type_c a ADDR_FORSPRF ;;
  leaf <- prf_addr_c ctx leaf loff a ;;                                        (* L37 *)
  a <- set_type_c a ADDR_FORSTREE ;;
  leaf <- thash_c ctx leaf loff leaf loff 1 a ;;                               (* L40 *)
  Ret (leaf, mem, a).
(** fors.c L66-109: signature at [mem + off], public key to [pk] *)
Definition fors_sign_c (ctx : spx_ctx) (mem : list Z) (off : Z) (pk m fors_addr : list Z) : outcome (list Z * list Z) :=
  fors_tree_addr <- copy_keypair_addr_c (zeros 32) fors_addr ;;
  fors_leaf_addr <- copy_keypair_addr_c (zeros 32) fors_addr ;;
  fors_pk_addr <- copy_keypair_addr_c (zeros 32) fors_addr ;;
  fors_pk_addr <- set_type_c fors_pk_addr ADDR_FORSPK ;;
  indices <- message_to_indices_c (locw 35) m ;;
  '(mem, _, roots, _, _) <-
    for_loop 35 (fun i '(mem, off, roots, a, fors_leaf_addr) =>
      let idx_offset := i * 512 in
      x <- rd 0 indices i ;;
      a <- set_tree_height_c a 0 ;;
      a <- set_tree_index_c a (u32 (x + idx_offset)) ;;
      a <- set_type_c a ADDR_FORSPRF ;;
      mem <- prf_addr_c ctx mem off a ;;                                       (* L95 *)
      a <- set_type_c a ADDR_FORSTREE ;;
      let off := off + 32 in
      '(roots, a, mem, fors_leaf_addr) <-
        treehashx1_c ctx (fors_gen_leafx1_c ctx) roots (i * 32) off x idx_offset 9 a mem fors_leaf_addr ;;
      Ret (mem, off + 32 * 9, roots, a, fors_leaf_addr))
      (mem, off, loc 1120, fors_tree_addr, fors_leaf_addr) ;;
  pk <- thash_c ctx pk 0 roots 0 35 fors_pk_addr ;;                            (* L108 *)
  Ret (mem, pk).
(** fors.c L118-156 *)
Definition fors_pk_from_sig_c (ctx : spx_ctx) (pk mem : list Z) (off : Z) (m fors_addr : list Z) : outcome (list Z) :=
  fors_tree_addr <- copy_keypair_addr_c (zeros 32) fors_addr ;;
  fors_pk_addr <- copy_keypair_addr_c (zeros 32) fors_addr ;;
  fors_tree_addr <- set_type_c fors_tree_addr ADDR_FORSTREE ;;
  fors_pk_addr <- set_type_c fors_pk_addr ADDR_FORSPK ;;
  indices <- message_to_indices_c (locw 35) m ;;
  '(_, _, roots, _) <-
    for_loop 35 (fun i '(off, leaf, roots, a) =>
      let idx_offset := i * 512 in
      x <- rd 0 indices i ;;
      a <- set_tree_height_c a 0 ;;
      a <- set_tree_index_c a (u32 (x + idx_offset)) ;;
      leaf <- thash_c ctx leaf 0 mem off 1 a ;;                                (* L145 *)
      let off := off + 32 in
      '(roots, a) <- compute_root_c ctx roots (i * 32) leaf x idx_offset mem off 9 a ;;
      Ret (off + 32 * 9, leaf, roots, a))
      (off, loc 32, loc 1120, fors_tree_addr) ;;
  thash_c ctx pk 0 roots 0 35 fors_pk_addr.

(** ** sign.c *)

(** sign.c L50-75; the context is filled from the key buffers *)
Definition seed_keypair_c (pk sk seed : list Z) : outcome (Z * list Z * list Z) :=
  sk <- copy sk 0 seed 0 96 ;;                                                 (* L55 *)
  pk <- copy pk 0 sk 64 32 ;;                                                  (* L57 *)
  ps <- copy (loc 32) 0 pk 0 32 ;;
  ss <- copy (loc 32) 0 sk 0 32 ;;
  sk <- merkle_gen_root_c {| pub_seed := ps; sk_seed := ss |} sk 96 ;;         (* L67 *)
  pk <- copy pk 32 sk 96 32 ;;                                                 (* L72 *)
  Ret (0, pk, sk).
(** sign.c L82-91 *)
Definition keypair_c (rb : Z -> Z * list Z) (pk sk : list Z) : outcome (Z * list Z * list Z) :=
  let '(r, bs) := rb 96 in
  seed <- copy (loc 96) 0 bs 0 (zlen bs) ;;
  if negb (r =? 0) then Ret (-1, pk, sk) else
  '(_, pk, sk) <- seed_keypair_c pk sk seed ;;
  Ret (0, pk, sk).

(** sign.c L143-156, one layer *)
Definition sign_layer_c (ctx : spx_ctx) (i : Z) (s : list Z * Z * list Z * list Z * list Z * Z * Z)
  : outcome (list Z * Z * list Z * list Z * list Z * Z * Z) :=
  let '(mem, off, root, wots_addr, tree_addr, tree, idx_leaf) := s in
  tree_addr <- set_layer_addr_c tree_addr i ;;
  tree_addr <- set_tree_addr_c tree_addr tree ;;
  wots_addr <- copy_subtree_addr_c wots_addr tree_addr ;;
  wots_addr <- set_keypair_addr_c wots_addr idx_leaf ;;
  '(mem, root, tree_addr) <- merkle_sign_c ctx mem off root 0 wots_addr tree_addr idx_leaf ;;
  Ret (mem, off + (2144 + 4 * 32), root, wots_addr, tree_addr,
       Z.shiftr tree 4, u32 (Z.land tree (Z.shiftl 1 4 - 1))).
(** sign.c L96-163: [mem] holds the signature buffer at [so] and the message at [mo].
    Result: return value, *siglen, memory. *)
Definition sign_signature_c (rb : Z -> Z * list Z) (mem : list Z) (so siglen mo mlen : Z) (sk : list Z)
  : outcome (Z * Z * list Z) :=
  ss <- copy (loc 32) 0 sk 0 32 ;;
  ps <- copy (loc 32) 0 sk 64 32 ;;
  let ctx := {| pub_seed := ps; sk_seed := ss |} in
  wots_addr <- set_type_c (zeros 32) ADDR_WOTS ;;
  tree_addr <- set_type_c (zeros 32) ADDR_HASHTREE ;;
  let '(r, bs) := rb 32 in
  optrand <- copy (loc 32) 0 bs 0 (zlen bs) ;;                                 (* L125 *)
  if negb (r =? 0) then Ret (-1, siglen, mem) else
  mem <- gen_message_random_c mem so sk 32 optrand mo mlen ;;                  (* L130 *)
  '(mhash, tree, idx_leaf) <- hash_message_c (loc 40) mem so sk 64 mo mlen ;;  (* L133 *)
  let off := so + 32 in
  wots_addr <- set_tree_addr_c wots_addr tree ;;
  wots_addr <- set_keypair_addr_c wots_addr idx_leaf ;;
  '(mem, root) <- fors_sign_c ctx mem off (loc 32) mhash wots_addr ;;          (* L140 *)
  let off := off + 11200 in
  '(mem, _, _, _, _, _, _) <-
    for_loop 17 (sign_layer_c ctx) (mem, off, root, wots_addr, tree_addr, tree, idx_leaf) ;;
  Ret (0, SPX_BYTES, mem).
(** sign.c L252-263; [siglen0] is the uninitialised local of L255 *)
Definition crypto_sign_c (rb : Z -> Z * list Z) (mem : list Z) (so siglen0 mo mlen : Z) (sk : list Z)
  : outcome (Z * Z * list Z) :=
  '(_, siglen, mem) <- sign_signature_c rb mem so siglen0 mo mlen sk ;;        (* L257 *)
  mem <- copy mem (so + SPX_BYTES) mem mo mlen ;;                              (* L259, memmove *)
  Ret (0, u64 (siglen + mlen), mem).

(** sign.c L210-236, one layer; [leaf] and [wots_pk] are the arrays of L173 and L175 *)
Definition verify_layer_c (ctx : spx_ctx) (mem : list Z) (i : Z)
    (s : Z * list Z * list Z * list Z * list Z * list Z * list Z * Z * Z)
  : outcome (Z * list Z * list Z * list Z * list Z * list Z * list Z * Z * Z) :=
  let '(off, root, leaf, wots_pk, wots_addr, tree_addr, wots_pk_addr, tree, idx_leaf) := s in
  tree_addr <- set_layer_addr_c tree_addr i ;;
  tree_addr <- set_tree_addr_c tree_addr tree ;;
  wots_addr <- copy_subtree_addr_c wots_addr tree_addr ;;
  wots_addr <- set_keypair_addr_c wots_addr idx_leaf ;;
  wots_pk_addr <- copy_keypair_addr_c wots_pk_addr wots_addr ;;
  '(wots_pk, wots_addr) <- wots_pk_from_sig_c ctx wots_pk mem off root wots_addr ;;  (* L222 *)
  let off := off + 2144 in
  leaf <- thash_c ctx leaf 0 wots_pk 0 67 wots_pk_addr ;;                      (* L226 *)
  '(root, tree_addr) <- compute_root_c ctx root 0 leaf idx_leaf 0 mem off 4 tree_addr ;; (* L229-230 *)
  Ret (off + 4 * 32, root, leaf, wots_pk, wots_addr, tree_addr, wots_pk_addr,
       Z.shiftr tree 4, u32 (Z.land tree (Z.shiftl 1 4 - 1))).
(** [memcmp] of [n] bytes, as used in L242: nonzero iff some byte differs *)
Definition memcmp_c (a : list Z) (aoff : Z) (b : list Z) (boff n : Z) : outcome Z :=
  for_loop n (fun i r =>
    x <- rd 0 a (aoff + i) ;;
    y <- rd 0 b (boff + i) ;;
    Ret (if r =? 0 then x - y else r)) 0.
(** sign.c L168-247: signature at [mem + so], message at [mem + mo] *)
Definition sign_verify_c (mem : list Z) (so siglen mo mlen : Z) (pk : list Z) : outcome Z :=
  if negb (siglen =? SPX_BYTES) then Ret (-1) else
  ps <- copy (loc 32) 0 pk 0 32 ;;
  let ctx := {| pub_seed := ps; sk_seed := loc 32 |} in
  wots_addr <- set_type_c (zeros 32) ADDR_WOTS ;;
  tree_addr <- set_type_c (zeros 32) ADDR_HASHTREE ;;
  wots_pk_addr <- set_type_c (zeros 32) ADDR_WOTSPK ;;
  '(mhash, tree, idx_leaf) <- hash_message_c (loc 40) mem so pk 0 mo mlen ;;   (* L199 *)
  let off := so + 32 in
  wots_addr <- set_tree_addr_c wots_addr tree ;;
  wots_addr <- set_keypair_addr_c wots_addr idx_leaf ;;
  root <- fors_pk_from_sig_c ctx (loc 32) mem off mhash wots_addr ;;           (* L206 *)
  let off := off + 11200 in
  '(_, root, _, _, _, _, _, _, _) <-
    for_loop 17 (verify_layer_c ctx mem)
             (off, root, loc 32, loc 2144, wots_addr, tree_addr, wots_pk_addr, tree, idx_leaf) ;;
  r <- memcmp_c root 0 pk 32 32 ;;                                             (* L242 *)
  Ret (if negb (r =? 0) then -1 else 0).
(** sign.c L268-289: signed message at [mem + so], message buffer at [mem + mo].
    Result: return value, *mlen, memory. *)
Definition crypto_sign_open_c (mem : list Z) (so smlen mo : Z) (pk : list Z) : outcome (Z * Z * list Z) :=
  if smlen <? SPX_BYTES then Ret (-1, 0, mem) else
  let mlen := smlen - SPX_BYTES in
  r <- sign_verify_c mem so SPX_BYTES (so + SPX_BYTES) mlen pk ;;              (* L280 *)
  if negb (r =? 0) then Ret (-1, 0, mem) else
  mem <- copy mem mo mem (so + SPX_BYTES) mlen ;;                              (* L286, memmove *)
  Ret (0, mlen, mem).
End Buf.
