(** Model of wasm/hybrid-pqc.c, the exported WebAssembly wrappers.

    On wasm32 [size_t] has 4 bytes and [unsigned long long] 8 bytes, stored least
    significant byte first.  The object behind a [size_t *] is therefore a byte
    array here, instead of the number it is in Hybrid.v. *)
From Verif Require Import Base Hybrid.
Local Open Scope Z_scope.

(** A store of an [unsigned long long] to the start of an object. *)
Definition le_bytes (n : nat) (v : Z) : list Z := map (fun i => (v / 2 ^ (8 * Z.of_nat i)) mod 256) (seq 0 n).
Definition store_u64 (obj : list Z) (v : Z) : outcome (list Z) := copy obj 0 (le_bytes 8 v) 0 8.
(** Reading back a [size_t]. *)
Definition load_size_t (obj : list Z) : outcome Z :=
  b <- rdrange obj 0 4 ;; Ret (fold_right (fun x acc => x + 256 * acc) 0 b).

Section WithComponents.
Variable P : comps.

(** L29-32 *)
Definition dp_sign_keypair_seed (pk sk seed : ptr) : outcome (Z * ptr * ptr) := keypair_seed P pk sk seed.
(** L34-37 *)
Definition dp_sign_keypair (rb : rnd) (pk sk : ptr) : outcome (Z * ptr * ptr) := keypair P rb pk sk.
(** L39-42.  The [size_t *smlen] of the wrapper is passed on as the
    [unsigned long long *smlen] of hybrid.h; the only store through it (hybrid.c
    L561) happens right before [return 0].  A NULL [smlen] stays NULL. *)
Definition dp_sign (rb : rnd) (sm : ptr) (smlen : ptr) (m : ptr) (mlen : Z) (sk : ptr) : outcome (Z * ptr * ptr) :=
  match smlen with
  | None => '(r, sm, _) <- sign_compact P rb sm None m mlen sk ;; Ret (r, sm, None)
  | Some obj =>
      '(r, sm, l) <- sign_compact P rb sm (Some 0) m mlen sk ;;
      match r, l with
      | 0, Some v => obj <- store_u64 obj v ;; Ret (r, sm, Some obj)
      | _, _ => Ret (r, sm, Some obj)
      end
  end.
(** L44-47 *)
Definition dp_sign_verify (m : ptr) (mlen : Z) (sm : ptr) (smlen : Z) (pk : ptr) : outcome Z := verify_compact P m mlen sm smlen pk.
End WithComponents.

(** L23-27: the part of [mem_free] before [free]. *)
Definition mem_free_wipe (obj : list Z) (size : Z) : outcome (list Z) := copy obj 0 (zeros size) 0 size.
