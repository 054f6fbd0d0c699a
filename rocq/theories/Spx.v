(** Model of [sphincs/*.c] (SPHINCS+-SHAKE-256f-simple): addresses, WOTS+, FORS,
    tree hashing, key generation, signing and verification.

    Addresses ([uint32_t addr[8]], accessed as bytes everywhere) are lists of 32
    bytes; their writers are at constant offsets inside the array, so they are
    modelled as plain updates.  The signature buffer is one list of bytes and
    every write to it through a moved pointer is a bounds-checked [copy] at an
    explicit offset; reads from caller buffers are bounds-checked [rdrange].
    Local byte arrays that are filled from front to back ([pk_buffer], [roots],
    [wots_pk], [lengths]) are lists built by appending.

    The SHAKE-256 calls go through the parameter [H] (input, output length).
    [prf_addr] and [thash] use the one-shot function; [gen_message_random] and
    [hash_message] use the incremental one, absorbing the concatenation of their
    inputs (the incremental API is modelled in [Sponge.v] and its agreement with
    the one-shot one is C20). *)
From Verif Require Import Base.
Local Open Scope Z_scope.

(** ** params.h *)
Definition SPX_N := 32.                (* params.h L7 *)
Definition SPX_D := 17.                (* params.h L11 *)
Definition SPX_FORS_HEIGHT := 9.       (* params.h L13 *)
Definition SPX_FORS_TREES := 35.       (* params.h L14 *)
Definition SPX_WOTS_LEN1 := 64.        (* params.h L27 *)
Definition SPX_WOTS_LEN2 := 3.         (* params.h L30 *)
Definition SPX_WOTS_LEN := 67.         (* params.h L32 *)
Definition SPX_WOTS_BYTES := 2144.     (* params.h L33 *)
Definition SPX_TREE_HEIGHT := 4.       (* params.h L37 *)
Definition SPX_FORS_MSG_BYTES := 40.   (* params.h L44 *)
Definition SPX_FORS_BYTES := 11200.    (* params.h L45 *)
Definition SPX_BYTES := 49856.         (* params.h L49-50 *)

(** ** utils.c *)

(** utils.c L13-22, [ull_to_bytes]: bytes are produced from the last one back. *)
Fixpoint ull_to_bytes_loop (n : nat) (v : Z) (acc : list Z) : list Z :=
  match n with
  | O => acc
  | S n' => ull_to_bytes_loop n' (Z.shiftr v 8) (Z.land v 255 :: acc)
  end.
Definition ull_to_bytes (outlen : nat) (v : Z) : list Z := ull_to_bytes_loop outlen v [].

(** utils.c L24-29, [u32_to_bytes]. *)
Definition u32_to_bytes (v : Z) : list Z :=
  [u8 (Z.shiftr v 24); u8 (Z.shiftr v 16); u8 (Z.shiftr v 8); u8 v].

(** utils.c L34-42, [bytes_to_ull]. *)
Definition bytes_to_ull (inp : list Z) (inlen : nat) : Z :=
  fold_left (fun r i => Z.lor r (u64 (Z.shiftl (nth i inp 0) (8 * (Z.of_nat inlen - 1 - Z.of_nat i)))))
            (seq 0 inlen) 0.

(** ** address.c; offsets from shake_offsets.h *)

(** one byte store into the address array (L12, L29, L47, L64, L72, L82) *)
Definition set_byte (a : list Z) (off : Z) (v : Z) : list Z := upd a (Z.to_nat off) (u8 v).

Definition set_layer_addr a layer := set_byte a 3 layer.                     (* address.c L11-13 *)
Definition set_tree_addr (a : list Z) (tree : Z) : list Z :=                 (* address.c L18-20 *)
  slice a 0 8 ++ ull_to_bytes 8 tree ++ slice a 16 16.
Definition set_type a type := set_byte a 19 type.                            (* address.c L28-30 *)
Definition copy_subtree_addr (out inn : list Z) : list Z :=                  (* address.c L36-38 *)
  slice inn 0 16 ++ slice out 16 16.
Definition set_keypair_addr a kp := set_byte a 23 kp.                        (* address.c L46-48 *)
Definition copy_keypair_addr (out inn : list Z) : list Z :=                  (* address.c L54-57 *)
  set_byte (slice inn 0 16 ++ slice out 16 16) 23 (nth 23 inn 0).
Definition set_chain_addr a c := set_byte a 27 c.                            (* address.c L63-65 *)
Definition set_hash_addr a h := set_byte a 31 h.                             (* address.c L71-73 *)
Definition set_tree_height a h := set_byte a 27 h.                           (* address.c L81-83 *)
Definition set_tree_index (a : list Z) (i : Z) : list Z :=                   (* address.c L89-91 *)
  slice a 0 28 ++ u32_to_bytes i.

Definition addr0 : list Z := zeros 32.                                       (* [= {0}] *)
Definition ADDR_WOTS := 0.      (* address.h, SPX_ADDR_TYPE_* *)
Definition ADDR_WOTSPK := 1.
Definition ADDR_HASHTREE := 2.
Definition ADDR_FORSTREE := 3.
Definition ADDR_FORSPK := 4.
Definition ADDR_WOTSPRF := 5.
Definition ADDR_FORSPRF := 6.

(** ** wots.c: chain lengths *)

(** wots.c L45-63, [base_w]: state (in, total, bits, output). *)
Definition base_w (out_len : Z) (input : list Z) : outcome (list Z) :=
  '(inn, total, bits, out) <-
    for_loop out_len (fun consumed '(inn, total, bits, out) =>
      '(inn, total, bits) <-
        (if bits =? 0 then b <- rd 0 input inn ;; Ret (inn + 1, b, bits + 8)  (* L54-58 *)
         else Ret (inn, total, bits)) ;;
      let bits := bits - 4 in                                                 (* L59 *)
      Ret (inn, total, bits, out ++ [Z.land (Z.shiftr total bits) 15]))       (* L60-61 *)
      (0, 0, 0, []) ;;
  Ret out.

(** wots.c L66-82, [wots_checksum]; [unsigned int] arithmetic. *)
Definition wots_checksum (msg_base_w : list Z) : outcome (list Z) :=
  csum <- for_loop SPX_WOTS_LEN1 (fun i csum =>
            m <- rd 0 msg_base_w i ;; Ret (u32 (csum + u32 (15 - m)))) 0 ;;   (* L73-75 *)
  let csum := u32 (Z.shiftl csum 4) in                                        (* L79 *)
  base_w SPX_WOTS_LEN2 (ull_to_bytes 2 csum).                                 (* L80-81 *)

(** wots.c L85-88, [chain_lengths]. *)
Definition chain_lengths (msg : list Z) : outcome (list Z) :=
  l <- base_w SPX_WOTS_LEN1 msg ;;
  c <- wots_checksum l ;;
  Ret (l ++ c).

(** ** fors.c L49-60, [message_to_indices].
    [~offset & 7] is [7 - offset mod 8]; [offset] is at most 315. *)
Definition message_to_indices (m : list Z) : outcome (list Z) :=
  '(offset, out) <-
    for_loop SPX_FORS_TREES (fun i '(offset, out) =>
      '(offset, x) <-
        for_loop SPX_FORS_HEIGHT (fun j '(offset, x) =>
          b <- rd 0 m (Z.shiftr offset 3) ;;
          let bit := Z.land (Z.shiftr b (Z.land (Z.lnot offset) 7)) 1 in
          Ret (offset + 1, Z.lxor x (Z.shiftl bit (SPX_FORS_HEIGHT - 1 - j))))  (* L56 *)
        (offset, 0) ;;
      Ret (offset, out ++ [x])) (0, []) ;;
  Ret out.

Section Hash.
Variable H : list Z -> Z -> list Z.

(** [spx_ctx] (context.h L9-13): public seed and secret seed. *)
Record spx_ctx := { pub_seed : list Z; sk_seed : list Z }.
Variable ctx : spx_ctx.

(** ** thash_shake_simple.c L15-24 and hash_shake.c *)
Definition thash (inp addr : list Z) : list Z := H (pub_seed ctx ++ addr ++ inp) SPX_N.
(** hash_shake.c L14-23 *)
Definition prf_addr (addr : list Z) : list Z := H (pub_seed ctx ++ addr ++ sk_seed ctx) SPX_N.
(** hash_shake.c L29-43 *)
Definition gen_message_random (sk_prf optrand m : list Z) : list Z :=
  H (sk_prf ++ optrand ++ m) SPX_N.
(** hash_shake.c L50-82: digest, tree, leaf_idx *)
Definition hash_message (R pk m : list Z) : list Z * Z * Z :=
  let buf := H (R ++ pk ++ m) 49 in
  let digest := slice buf 0 SPX_FORS_MSG_BYTES in                              (* L73 *)
  let tree := bytes_to_ull (slice buf 40 8) 8 in                               (* L76 *)
  let tree := Z.land tree (Z.shiftr (2 ^ 64 - 1) (64 - 64)) in                 (* L77 *)
  let leaf := u32 (bytes_to_ull (slice buf 48 1) 1) in                         (* L80 *)
  let leaf := Z.land leaf (Z.shiftr (2 ^ 32 - 1) (32 - SPX_TREE_HEIGHT)) in    (* L81 *)
  (digest, tree, leaf).

(** ** wots.c L25-38, [gen_chain]: the loop condition is evaluated before every
    step; [fuel] bounds the steps ([i < 16] makes 16 enough). *)
Fixpoint gen_chain_loop (fuel : nat) (i stop : Z) (out addr : list Z) : outcome (list Z * list Z) :=
  if (i <? stop) && (i <? 16) then
    match fuel with
    | O => Undef
    | S f =>
        let addr := set_hash_addr addr i in                                    (* L35 *)
        gen_chain_loop f (i + 1) stop (thash out addr) addr                    (* L36 *)
    end
  else Ret (out, addr).
Definition gen_chain (inp : list Z) (start steps : Z) (addr : list Z) : outcome (list Z * list Z) :=
  gen_chain_loop 16 start (u32 (start + steps)) inp addr.

(** wots.c L95-108, [wots_pk_from_sig]; the signature is at offset [off] of [sig]. *)
Definition wots_pk_from_sig (sig : list Z) (off : Z) (msg addr : list Z) : outcome (list Z * list Z) :=
  lengths <- chain_lengths msg ;;                                              (* L101 *)
  for_loop SPX_WOTS_LEN (fun i '(pk, addr) =>
    let addr := set_chain_addr addr i in                                       (* L104 *)
    inp <- rdrange sig (off + i * SPX_N) SPX_N ;;
    d <- rd 0 lengths i ;;
    '(out, addr) <- gen_chain inp d (u32 (15 - d)) addr ;;                     (* L105-106 *)
    Ret (pk ++ out, addr)) ([], addr).

(** ** wotsx1.c L18-76, [wots_gen_leafx1].
    [info]: signing leaf, steps, offset of [wots_sig] in the signature buffer. *)
Record leaf_info := { wots_sig_off : Z; wots_sign_leaf : Z; wots_steps : list Z }.

(** L55-71: [for (k = 0;; k++)]; [n] is [15 - k]. *)
Fixpoint leaf_chain (n : nat) (k wots_k dstoff : Z) (sig buffer leaf_addr : list Z)
  : outcome (list Z * list Z * list Z) :=
  sig <- (if k =? wots_k then copy sig dstoff buffer 0 SPX_N else Ret sig) ;;  (* L58-60 *)
  match n with
  | O => Ret (sig, buffer, leaf_addr)                                          (* L63-65 *)
  | S n' =>
      let leaf_addr := set_hash_addr leaf_addr k in                            (* L68 *)
      leaf_chain n' (k + 1) wots_k dstoff sig (thash buffer leaf_addr) leaf_addr (* L70 *)
  end.

Definition wots_gen_leafx1 (info : leaf_info) (leaf_idx : Z) (sig : list Z) (st : list Z * list Z)
  : outcome (list Z * list Z * (list Z * list Z)) :=
  let '(leaf_addr, pk_addr) := st in
  let wots_k_mask := if leaf_idx =? wots_sign_leaf info then 0 else 2 ^ 32 - 1 in (* L29-36 *)
  let leaf_addr := set_keypair_addr leaf_addr leaf_idx in                      (* L38 *)
  let pk_addr := set_keypair_addr pk_addr leaf_idx in                          (* L39 *)
  '(sig, pk_buffer, leaf_addr) <-
    for_loop SPX_WOTS_LEN (fun i '(sig, pk_buffer, leaf_addr) =>
      st <- rd 0 (wots_steps info) i ;;
      let wots_k := Z.lor st wots_k_mask in                                    (* L42 *)
      let leaf_addr := set_chain_addr leaf_addr i in                           (* L46 *)
      let leaf_addr := set_hash_addr leaf_addr 0 in                            (* L47 *)
      let leaf_addr := set_type leaf_addr ADDR_WOTSPRF in                      (* L48 *)
      let buffer := prf_addr leaf_addr in                                      (* L50 *)
      let leaf_addr := set_type leaf_addr ADDR_WOTS in                         (* L52 *)
      '(sig, buffer, leaf_addr) <-
        leaf_chain 15 0 wots_k (wots_sig_off info + i * SPX_N) sig buffer leaf_addr ;;
      Ret (sig, pk_buffer ++ buffer, leaf_addr)) (sig, [], leaf_addr) ;;
  Ret (thash pk_buffer pk_addr, sig, (leaf_addr, pk_addr)).                    (* L75 *)

(** ** utilsx1.c L24-100, [treehashx1].
    The callback [gen_leaf] receives the index and returns the leaf; it may write
    to the signature buffer and to its own [info] state.  [auth_path] is the
    offset [aoff] of the signature buffer. *)
Section TreeHash.
Context {T : Type}.
Variable gen_leaf : Z -> list Z -> T -> outcome (list Z * list Z * T).

(** L52-94, the loop over [h]; [n] is [tree_height - h].  [inl] is the [return]
    of L58, [inr] the [break] of L78 with the height reached. *)
Fixpoint treehash_up (n : nat) (h idx max_idx ioff iidx ileaf aoff : Z)
    (current stack tree_addr sig : list Z)
  : outcome (list Z * (list Z * list Z * list Z) + Z * (list Z * list Z * list Z * list Z)) :=
  match n with
  | O => Ret (inl (current, (stack, tree_addr, sig)))                          (* L55-59 *)
  | S n' =>
      sig <- (if Z.lxor iidx ileaf =? 1
              then copy sig (aoff + h * SPX_N) current 0 SPX_N else Ret sig) ;; (* L65-69 *)
      if (Z.land iidx 1 =? 0) && (idx <? max_idx)
      then Ret (inr (h, (current, stack, tree_addr, sig)))                     (* L77-79 *)
      else
        let ioff := Z.shiftr ioff 1 in                                         (* L85 *)
        let tree_addr := set_tree_height tree_addr (h + 1) in                  (* L86 *)
        let tree_addr := set_tree_index tree_addr (u32 (iidx / 2 + ioff)) in   (* L87 *)
        left <- rdrange stack (h * SPX_N) SPX_N ;;                             (* L89-90 *)
        let current := thash (left ++ current) tree_addr in                    (* L91-93 *)
        treehash_up n' (h + 1) idx max_idx ioff (Z.shiftr iidx 1) (Z.shiftr ileaf 1) aoff
                    current stack tree_addr sig
  end.

(** L39-99, the loop over [idx] ([uint32_t]); [fuel] counts the leaves that can
    still be visited, running out of it would be [Undef]. *)
Fixpoint treehash_loop (fuel : nat) (idx leaf_idx idx_offset tree_height aoff : Z)
    (stack tree_addr sig : list Z) (st : T) : outcome (list Z * list Z * list Z * T) :=
  match fuel with
  | O => Undef
  | S f =>
      let max_idx := u32 (Z.shiftl 1 tree_height - 1) in                       (* L38 *)
      '(leaf, sig, st) <- gen_leaf (u32 (idx + idx_offset)) sig st ;;          (* L43-44 *)
      r <- treehash_up (Z.to_nat tree_height) 0 idx max_idx idx_offset idx leaf_idx aoff
                       leaf stack tree_addr sig ;;
      match r with
      | inl (root, (stack, tree_addr, sig)) => Ret (root, tree_addr, sig, st)
      | inr (h, (current, stack, tree_addr, sig)) =>
          stack <- copy stack (h * SPX_N) current 0 SPX_N ;;                   (* L98 *)
          treehash_loop f (u32 (idx + 1)) leaf_idx idx_offset tree_height aoff
                        stack tree_addr sig st
      end
  end.

(** [stack0] is the (uninitialised) VLA of L35. *)
Definition treehashx1 (stack0 : list Z) (aoff leaf_idx idx_offset tree_height : Z)
    (tree_addr sig : list Z) (st : T) : outcome (list Z * list Z * list Z * T) :=
  treehash_loop (Z.to_nat (2 ^ tree_height)) 0 leaf_idx idx_offset tree_height aoff
                stack0 tree_addr sig st.
End TreeHash.

(** ** utils.c L48-90, [compute_root]; the path is at offset [off] of [sig].
    [buffer] is the pair of its two 32-byte halves. *)
Definition compute_root (leaf : list Z) (leaf_idx idx_offset : Z) (sig : list Z) (off tree_height : Z)
    (addr : list Z) : outcome (list Z * list Z) :=
  a0 <- rdrange sig off SPX_N ;;
  let '(b0, b1) := if negb (Z.land leaf_idx 1 =? 0) then (a0, leaf) else (leaf, a0) in  (* L57-63 *)
  '(b0, b1, leaf_idx, idx_offset, addr) <-
    for_loop (u32 (tree_height - 1)) (fun i '(b0, b1, leaf_idx, idx_offset, addr) =>
      let leaf_idx := Z.shiftr leaf_idx 1 in                                   (* L67 *)
      let idx_offset := Z.shiftr idx_offset 1 in                               (* L68 *)
      let addr := set_tree_height addr (i + 1) in                              (* L70 *)
      let addr := set_tree_index addr (u32 (leaf_idx + idx_offset)) in         (* L71 *)
      let node := thash (b0 ++ b1) addr in
      a <- rdrange sig (off + (i + 1) * SPX_N) SPX_N ;;
      if negb (Z.land leaf_idx 1 =? 0)
      then Ret (a, node, leaf_idx, idx_offset, addr)                           (* L74-76 *)
      else Ret (node, a, leaf_idx, idx_offset, addr))                          (* L77-80 *)
      (b0, b1, leaf_idx, idx_offset, addr) ;;
  let leaf_idx := Z.shiftr leaf_idx 1 in                                       (* L85 *)
  let idx_offset := Z.shiftr idx_offset 1 in                                   (* L86 *)
  let addr := set_tree_height addr tree_height in                              (* L87 *)
  let addr := set_tree_index addr (u32 (leaf_idx + idx_offset)) in             (* L88 *)
  Ret (thash (b0 ++ b1) addr, addr).                                           (* L89 *)

(** ** utils.c L100-148, [treehash] (not called by this library).
    [stack] is the array of L107, [heights] that of L108 with the entries in use
    kept as a list, last entry first ([offset] is its length). *)
Section TreeHash0.
Variable gen_leaf0 : Z -> list Z -> list Z.    (* index, tree_addr; read only *)

Fixpoint treehash_while (fuel : nat) (idx leaf_idx idx_offset : Z) (heights : list Z)
    (stack tree_addr auth : list Z) : outcome (list Z * list Z * list Z * list Z) :=
  let offset := zlen heights in
  match heights with
  | h1 :: h2 :: rest =>
      if h1 =? h2 then                                                          (* L125 *)
        match fuel with
        | O => Undef
        | S f =>
            let tree_idx := Z.shiftr idx (h1 + 1) in                            (* L127 *)
            let tree_addr := set_tree_height tree_addr (h1 + 1) in              (* L130 *)
            let tree_addr := set_tree_index tree_addr
                               (u32 (tree_idx + Z.shiftr idx_offset (h1 + 1))) in (* L131 *)
            inp <- rdrange stack ((offset - 2) * SPX_N) (2 * SPX_N) ;;
            stack <- copy stack ((offset - 2) * SPX_N) (thash inp tree_addr) 0 SPX_N ;; (* L134 *)
            let h := h2 + 1 in                                                  (* L136-138 *)
            auth <- (if Z.lxor (Z.shiftr leaf_idx h) 1 =? tree_idx
                     then node <- rdrange stack ((offset - 2) * SPX_N) SPX_N ;;
                          copy auth (h * SPX_N) node 0 SPX_N                    (* L141-144 *)
                     else Ret auth) ;;
            treehash_while f idx leaf_idx idx_offset (h :: rest) stack tree_addr auth
        end
      else Ret (heights, stack, tree_addr, auth)
  | _ => Ret (heights, stack, tree_addr, auth)
  end.

Definition treehash (stack0 auth0 : list Z) (leaf_idx idx_offset tree_height : Z) (tree_addr : list Z)
  : outcome (list Z * list Z * list Z) :=
  '(heights, stack, tree_addr, auth) <-
    for_loop (u32 (Z.shiftl 1 tree_height))                                     (* L113 *)
      (fun idx '(heights, stack, tree_addr, auth) =>
        let leaf := gen_leaf0 (u32 (idx + idx_offset)) tree_addr in             (* L115 *)
        let offset := zlen heights in
        stack <- copy stack (offset * SPX_N) leaf 0 SPX_N ;;
        auth <- (if Z.lxor leaf_idx 1 =? idx
                 then copy auth 0 leaf 0 SPX_N else Ret auth) ;;                (* L120-122 *)
        treehash_while (Z.to_nat tree_height) idx leaf_idx idx_offset (0 :: heights)
                       stack tree_addr auth) ([], stack0, tree_addr, auth0) ;;
  root <- rdrange stack 0 SPX_N ;;                                              (* L147 *)
  Ret (root, auth, tree_addr).
End TreeHash0.

(** ** merkle.c L18-42, [merkle_sign]: the signature goes to offset [off] of [sig];
    [root] is the message on entry and the tree root on return.
    [stack0] is the uninitialised stack array of [treehashx1]. *)
Definition merkle_sign (stack0 sig : list Z) (off : Z) (root wots_addr tree_addr : list Z) (idx_leaf : Z)
  : outcome (list Z * list Z * list Z) :=
  steps <- chain_lengths root ;;                                               (* L27 *)
  let info := {| wots_sig_off := off; wots_sign_leaf := idx_leaf; wots_steps := steps |} in
  let tree_addr := set_type tree_addr ADDR_HASHTREE in                         (* L30 *)
  let pk_addr := set_type addr0 ADDR_WOTSPK in                                 (* L31 *)
  let leaf_addr := copy_subtree_addr addr0 wots_addr in                        (* L32 *)
  let pk_addr := copy_subtree_addr pk_addr wots_addr in                        (* L33 *)
  '(root, tree_addr, sig, _) <-
    treehashx1 (wots_gen_leafx1 info) stack0 (off + SPX_WOTS_BYTES) idx_leaf 0 SPX_TREE_HEIGHT
               tree_addr sig (leaf_addr, pk_addr) ;;                           (* L37-41 *)
  Ret (sig, root, tree_addr).

(** merkle.c L45-59, [merkle_gen_root].  [auth0] is the uninitialised array of
    L49, [root0] the 32 bytes of the caller's buffer before the call (read by
    [chain_lengths] through [merkle_sign]). *)
Definition merkle_gen_root (stack0 auth0 root0 : list Z) : outcome (list Z) :=
  let top_tree_addr := set_layer_addr addr0 (SPX_D - 1) in                     (* L53 *)
  let wots_addr := set_layer_addr addr0 (SPX_D - 1) in                         (* L54 *)
  '(_, root, _) <- merkle_sign stack0 auth0 0 root0 wots_addr top_tree_addr (2 ^ 32 - 1) ;; (* L56-58 *)
  Ret root.

(** ** fors.c *)

(** fors.c L28-42, [fors_gen_leafx1] *)
Definition fors_gen_leafx1 (addr_idx : Z) (sig : list Z) (fors_leaf_addr : list Z)
  : outcome (list Z * list Z * list Z) :=
  let a := set_tree_index fors_leaf_addr addr_idx in                           (* L35 *)
  let a := set_type a ADDR_FORSPRF in                                          (* L36 *)
  let leaf := prf_addr a in                                                    (* L37 *)
  let a := set_type a ADDR_FORSTREE in                                         (* L39 *)
  Ret (thash leaf a, sig, a).                                                  (* L40 *)

(** fors.c L66-109, [fors_sign]; the signature goes to offset [off] of [sig].
    [stk i] is the uninitialised stack array of the i-th call of [treehashx1]. *)
Definition fors_sign (stk : Z -> list Z) (sig : list Z) (off : Z) (m fors_addr : list Z) : outcome (list Z * list Z) :=
  let fors_tree_addr := copy_keypair_addr addr0 fors_addr in                   (* L79 *)
  let fors_leaf_addr := copy_keypair_addr addr0 fors_addr in                   (* L80 *)
  let fors_pk_addr := copy_keypair_addr addr0 fors_addr in                     (* L82 *)
  let fors_pk_addr := set_type fors_pk_addr ADDR_FORSPK in                     (* L83 *)
  indices <- message_to_indices m ;;                                           (* L85 *)
  '(sig, _, roots, _, _) <-
    for_loop SPX_FORS_TREES (fun i '(sig, off, roots, fors_tree_addr, fors_leaf_addr) =>
      let idx_offset := i * 512 in                                             (* L88 *)
      x <- rd 0 indices i ;;
      let a := set_tree_height fors_tree_addr 0 in                             (* L90 *)
      let a := set_tree_index a (u32 (x + idx_offset)) in                      (* L91 *)
      let a := set_type a ADDR_FORSPRF in                                      (* L92 *)
      sig <- copy sig off (prf_addr a) 0 SPX_N ;;                              (* L95 *)
      let a := set_type a ADDR_FORSTREE in                                     (* L96 *)
      let off := off + SPX_N in                                                (* L97 *)
      '(root, a, sig, fors_leaf_addr) <-
        treehashx1 fors_gen_leafx1 (stk i) off x idx_offset SPX_FORS_HEIGHT a sig fors_leaf_addr ;; (* L100-102 *)
      Ret (sig, off + SPX_N * SPX_FORS_HEIGHT, roots ++ root, a, fors_leaf_addr)) (* L104 *)
      (sig, off, [], fors_tree_addr, fors_leaf_addr) ;;
  Ret (sig, thash roots fors_pk_addr).                                         (* L108 *)

(** fors.c L118-156, [fors_pk_from_sig] *)
Definition fors_pk_from_sig (sig : list Z) (off : Z) (m fors_addr : list Z) : outcome (list Z) :=
  let fors_tree_addr := copy_keypair_addr addr0 fors_addr in                   (* L130 *)
  let fors_pk_addr := copy_keypair_addr addr0 fors_addr in                     (* L131 *)
  let fors_tree_addr := set_type fors_tree_addr ADDR_FORSTREE in               (* L133 *)
  let fors_pk_addr := set_type fors_pk_addr ADDR_FORSPK in                     (* L134 *)
  indices <- message_to_indices m ;;                                           (* L136 *)
  '(_, roots, _) <-
    for_loop SPX_FORS_TREES (fun i '(off, roots, a) =>
      let idx_offset := i * 512 in                                             (* L139 *)
      x <- rd 0 indices i ;;
      let a := set_tree_height a 0 in                                          (* L141 *)
      let a := set_tree_index a (u32 (x + idx_offset)) in                      (* L142 *)
      sk <- rdrange sig off SPX_N ;;
      let leaf := thash sk a in                                                (* L145 *)
      let off := off + SPX_N in                                                (* L146 *)
      '(root, a) <- compute_root leaf x idx_offset sig off SPX_FORS_HEIGHT a ;; (* L149-150 *)
      Ret (off + SPX_N * SPX_FORS_HEIGHT, roots ++ root, a))                   (* L151 *)
      (off, [], fors_tree_addr) ;;
  Ret (thash roots fors_pk_addr).                                              (* L155 *)
End Hash.

(** ** sign.c *)
Section Sign.
Variable H : list Z -> Z -> list Z.

(** sign.c L50-75, [crypto_sign_seed_keypair].  [pk] and [sk] are the caller's
    buffers, [stack0] and [auth0] uninitialised locals of the callees. *)
Definition seed_keypair (stack0 auth0 pk sk seed : list Z) : outcome (Z * list Z * list Z) :=
  sk <- copy sk 0 seed 0 96 ;;                                                 (* L55 *)
  pk <- copy pk 0 sk 64 SPX_N ;;                                               (* L57 *)
  ps <- rdrange pk 0 SPX_N ;;                                                  (* L59 *)
  ss <- rdrange sk 0 SPX_N ;;                                                  (* L60 *)
  root0 <- rdrange sk 96 SPX_N ;;
  root <- merkle_gen_root H {| pub_seed := ps; sk_seed := ss |} stack0 auth0 root0 ;;  (* L67 *)
  sk <- copy sk 96 root 0 SPX_N ;;
  pk <- copy pk SPX_N sk 96 SPX_N ;;                                           (* L72 *)
  Ret (0, pk, sk).

(** sign.c L82-91, [crypto_sign_keypair].  [rb n] is [randombytes(seed, n)]. *)
Definition keypair (rb : Z -> Z * list Z) (stack0 auth0 pk sk : list Z) : outcome (Z * list Z * list Z) :=
  let '(r, seed) := rb 96 in                                                   (* L84 *)
  if negb (r =? 0) then Ret (-1, pk, sk) else                                  (* L85-87 *)
  '(_, pk, sk) <- seed_keypair stack0 auth0 pk sk seed ;;                      (* L88 *)
  Ret (0, pk, sk).

(** One layer of the signing loop (sign.c L143-156); state
    (sig, off, root, wots_addr, tree_addr, tree, idx_leaf).  [stk i] is the
    uninitialised stack array of [treehashx1] in layer [i]. *)
Definition sign_layer (ctx : spx_ctx) (stk : Z -> list Z) (i : Z)
    (s : list Z * Z * list Z * list Z * list Z * Z * Z)
  : outcome (list Z * Z * list Z * list Z * list Z * Z * Z) :=
  let '(sig, off, root, wots_addr, tree_addr, tree, idx_leaf) := s in
  let tree_addr := set_layer_addr tree_addr i in                               (* L144 *)
  let tree_addr := set_tree_addr tree_addr tree in                             (* L145 *)
  let wots_addr := copy_subtree_addr wots_addr tree_addr in                    (* L147 *)
  let wots_addr := set_keypair_addr wots_addr idx_leaf in                      (* L148 *)
  '(sig, root, tree_addr) <- merkle_sign H ctx (stk i) sig off root wots_addr tree_addr idx_leaf ;; (* L150 *)
  Ret (sig, off + (SPX_WOTS_BYTES + SPX_TREE_HEIGHT * SPX_N), root, wots_addr, tree_addr,
       Z.shiftr tree SPX_TREE_HEIGHT,                                          (* L155 *)
       u32 (Z.land tree (Z.shiftl 1 SPX_TREE_HEIGHT - 1))).                    (* L154 *)

(** sign.c L96-163, [crypto_sign_signature]: return code, *siglen, signature buffer.
    [stkf], [stkm]: uninitialised stack arrays of the callees. *)
Definition sign_signature (rb : Z -> Z * list Z) (stkf stkm : Z -> list Z) (sig : list Z) (siglen : Z) (m sk : list Z)
  : outcome (Z * Z * list Z) :=
  ss <- rdrange sk 0 SPX_N ;;                                                  (* L112 *)
  ps <- rdrange sk 64 SPX_N ;;                                                 (* L113 *)
  let ctx := {| pub_seed := ps; sk_seed := ss |} in
  let wots_addr := set_type addr0 ADDR_WOTS in                                 (* L119 *)
  let tree_addr := set_type addr0 ADDR_HASHTREE in                             (* L120 *)
  let '(r, optrand) := rb SPX_N in                                             (* L125 *)
  if negb (r =? 0) then Ret (-1, siglen, sig) else                             (* L126-128 *)
  sk_prf <- rdrange sk 32 SPX_N ;;
  pk <- rdrange sk 64 64 ;;
  sig <- copy sig 0 (gen_message_random H sk_prf optrand m) 0 SPX_N ;;         (* L130 *)
  R <- rdrange sig 0 SPX_N ;;
  let '(mhash, tree, idx_leaf) := hash_message H R pk m in                     (* L133 *)
  let off := SPX_N in                                                          (* L134 *)
  let wots_addr := set_tree_addr wots_addr tree in                             (* L136 *)
  let wots_addr := set_keypair_addr wots_addr idx_leaf in                      (* L137 *)
  '(sig, root) <- fors_sign H ctx stkf sig off mhash wots_addr ;;            (* L140 *)
  let off := off + SPX_FORS_BYTES in                                           (* L141 *)
  '(sig, _, _, _, _, _, _) <-
    for_loop SPX_D (sign_layer ctx stkm) (sig, off, root, wots_addr, tree_addr, tree, idx_leaf) ;;
  Ret (0, SPX_BYTES, sig).                                                     (* L160-162 *)

(** One layer of the verification loop (sign.c L210-236); state
    (off, root, wots_addr, tree_addr, wots_pk_addr, tree, idx_leaf). *)
Definition verify_layer (ctx : spx_ctx) (sig : list Z) (i : Z)
    (s : Z * list Z * list Z * list Z * list Z * Z * Z)
  : outcome (Z * list Z * list Z * list Z * list Z * Z * Z) :=
  let '(off, root, wots_addr, tree_addr, wots_pk_addr, tree, idx_leaf) := s in
  let tree_addr := set_layer_addr tree_addr i in                               (* L211 *)
  let tree_addr := set_tree_addr tree_addr tree in                             (* L212 *)
  let wots_addr := copy_subtree_addr wots_addr tree_addr in                    (* L214 *)
  let wots_addr := set_keypair_addr wots_addr idx_leaf in                      (* L215 *)
  let wots_pk_addr := copy_keypair_addr wots_pk_addr wots_addr in              (* L217 *)
  '(wots_pk, wots_addr) <- wots_pk_from_sig H ctx sig off root wots_addr ;;    (* L222 *)
  let off := off + SPX_WOTS_BYTES in                                           (* L223 *)
  let leaf := thash H ctx wots_pk wots_pk_addr in                              (* L226 *)
  '(root, tree_addr) <- compute_root H ctx leaf idx_leaf 0 sig off SPX_TREE_HEIGHT tree_addr ;; (* L229-230 *)
  Ret (off + SPX_TREE_HEIGHT * SPX_N, root, wots_addr, tree_addr, wots_pk_addr,
       Z.shiftr tree SPX_TREE_HEIGHT,                                          (* L235 *)
       u32 (Z.land tree (Z.shiftl 1 SPX_TREE_HEIGHT - 1))).                    (* L234 *)

(** sign.c L168-247, [crypto_sign_verify].  The secret seed of the context is
    not set and not used ([sk_seed0] stands for its contents). *)
Definition sign_verify (sk_seed0 sig : list Z) (siglen : Z) (m pk : list Z) : outcome Z :=
  if negb (siglen =? SPX_BYTES) then Ret (-1) else                             (* L183-185 *)
  ps <- rdrange pk 0 SPX_N ;;                                                  (* L187 *)
  let ctx := {| pub_seed := ps; sk_seed := sk_seed0 |} in
  let wots_addr := set_type addr0 ADDR_WOTS in                                 (* L193 *)
  let tree_addr := set_type addr0 ADDR_HASHTREE in                             (* L194 *)
  let wots_pk_addr := set_type addr0 ADDR_WOTSPK in                            (* L195 *)
  R <- rdrange sig 0 SPX_N ;;
  pkb <- rdrange pk 0 64 ;;
  let '(mhash, tree, idx_leaf) := hash_message H R pkb m in                    (* L199 *)
  let off := SPX_N in                                                          (* L200 *)
  let wots_addr := set_tree_addr wots_addr tree in                             (* L203 *)
  let wots_addr := set_keypair_addr wots_addr idx_leaf in                      (* L204 *)
  root <- fors_pk_from_sig H ctx sig off mhash wots_addr ;;                    (* L206 *)
  let off := off + SPX_FORS_BYTES in                                           (* L207 *)
  '(_, root, _, _, _, _, _) <-
    for_loop SPX_D (verify_layer ctx sig)
             (off, root, wots_addr, tree_addr, wots_pk_addr, tree, idx_leaf) ;;
  pub_root <- rdrange pk SPX_N SPX_N ;;
  Ret (if list_eq_dec Z.eq_dec root pub_root then 0 else -1).                  (* L242-246 *)

(** sign.c L252-263, [crypto_sign].  [siglen0] is the uninitialised local of
    L255; the message is copied to [sm + SPX_BYTES]. *)
Definition crypto_sign (rb : Z -> Z * list Z) (stkf stkm : Z -> list Z) (sm : list Z) (smlen siglen0 : Z) (m sk : list Z)
  : outcome (Z * Z * list Z) :=
  '(_, siglen, sm) <- sign_signature rb stkf stkm sm siglen0 m sk ;;              (* L257 *)
  sm <- copy sm SPX_BYTES m 0 (zlen m) ;;                                      (* L259 *)
  Ret (0, u64 (siglen + zlen m), sm).                                          (* L260-262 *)

(** sign.c L268-289, [crypto_sign_open]: return code, *mlen, message buffer. *)
Definition crypto_sign_open (sk_seed0 m : list Z) (mlen : Z) (sm pk : list Z) : outcome (Z * Z * list Z) :=
  let smlen := zlen sm in
  if smlen <? SPX_BYTES then Ret (-1, 0, m) else                               (* L273-276 *)
  let mlen := smlen - SPX_BYTES in                                             (* L278 *)
  msg <- rdrange sm SPX_BYTES mlen ;;
  r <- sign_verify sk_seed0 sm SPX_BYTES msg pk ;;                             (* L280 *)
  if negb (r =? 0) then Ret (-1, 0, m) else                                    (* L281-283 *)
  m <- copy m 0 msg 0 mlen ;;                                                  (* L286 *)
  Ret (0, mlen, m).
End Sign.
