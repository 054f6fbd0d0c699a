(** Model of the /dev/urandom variant of random/randombytes.c with its wait for entropy (L165-304):
    the system calls it makes, one by one, with errno and with a log of all calls and their replies.
    The system is an adversarial list of replies, consumed in order.

    Simplifications: entropy counts are integers of any size (int in the code); the descriptor numbers are
    not modelled, the three files are told apart by name; a failing ioctl or fscanf leaves [entropy] alone. *)
From Verif Require Import Base Random.
Local Open Scope Z_scope.

Inductive file := Urandom | Random | Proc.
(** [Scanf] stands for rewind and fscanf on the /proc file, [Read k] for read(fd, buf + offset, k). *)
Inductive call := Open (f : file) | Close (f : file) | Ioctl | Scanf | Poll | Read (k : Z).
(** [Fail e]: the call failed (-1, or NULL, or EOF, or nothing converted) and set errno to e, or left errno alone
    ([None]; fscanf at the end of the file does so).  [Num v]: success with the value v (ioctl and fscanf: the
    entropy count, poll: the return value).  [Bytes bs]: read offers the bytes bs. *)
Inductive reply := Fail (e : option Z) | Num (v : Z) | Bytes (bs : list Z).
Definition event : Type := call * reply.
Definition num (r : reply) : Z := match r with Num v => v | _ => 0 end.
(** the bytes a read of at most k bytes stores *)
Definition stored (k : Z) (r : reply) : list Z := match r with Bytes bs => slice bs 0 (Z.min (zlen bs) k) | _ => [] end.

Record st := { errno : Z; buf : list Z; log : list event; replies : list reply }.
(** returned; not returned yet; undefined behaviour *)
Inductive res (A : Type) := Fin (a : A) (s : st) | Wait (s : st) | Bad (s : st).
Arguments Fin {A}. Arguments Wait {A}. Arguments Bad {A}.
Definition W (A : Type) : Type := st -> res A.
Definition wret {A} (a : A) : W A := fun s => Fin a s.
Definition wbind {A B} (m : W A) (k : A -> W B) : W B := fun s => match m s with Fin a s => k a s | Wait s => Wait s | Bad s => Bad s end.
Definition wwait {A} : W A := fun s => Wait s.
Definition wbad {A} : W A := fun s => Bad s.
Definition get_errno : W Z := fun s => Fin (errno s) s.
Definition syscall (c : call) : W reply := fun s =>
  match replies s with
  | [] => Wait s
  | r :: rs => Fin r {| errno := match r with Fail (Some e) => e | _ => errno s end; buf := buf s; log := log s ++ [(c, r)]; replies := rs |}
  end.
Declare Scope dev_scope.
Notation "x <- m ;; k" := (wbind m (fun x => k)) (at level 61, m at next level, right associativity) : dev_scope.
Notation "' p <- m ;; k" := (wbind m (fun x => match x with p => k end)) (at level 61, p pattern, m at next level, right associativity) : dev_scope.
Local Open Scope dev_scope.

Definition ENOTTY : Z := 25.
Definition ENOSYS : Z := 38.

(** L225-227 of the entropy wait and L283-285: open, again while errno is EINTR.  The loops of this file give up
    waiting ([Wait]) after [fuel] rounds; the theorems are about every fuel. *)
Fixpoint open_w (fuel : nat) (f : file) : W bool :=
  match fuel with
  | O => wwait
  | S fuel =>
      r <- syscall (Open f) ;;
      match r with
      | Fail _ => e <- get_errno ;; if e =? EINTR then open_w fuel f else wret false
      | _ => wret true
      end
  end.
(** L167-170: the return code and the value of [entropy] afterwards *)
Definition read_entropy_ioctl (entropy : Z) : W (Z * Z) :=
  r <- syscall Ioctl ;; wret (match r with Fail _ => (-1, entropy) | _ => (0, num r) end).
(** L172-183 *)
Fixpoint read_entropy_proc (fuel : nat) (entropy : Z) : W (Z * Z) :=
  match fuel with
  | O => wwait
  | S fuel =>
      r <- syscall Scanf ;;
      match r with
      | Fail _ => e <- get_errno ;; if e =? EINTR then read_entropy_proc fuel entropy else wret (-1, entropy)
      | _ => wret (0, num r)
      end
  end.
(** L235-261, the loop around poll; [proc]: strategy == PROC.  The result is [retcode_error]. *)
Fixpoint poll_loop (fuel : nat) (proc : bool) (entropy : Z) : W Z :=
  match fuel with
  | O => wwait
  | S k =>
      r <- syscall Poll ;;
      match r with
      | Fail _ => e <- get_errno ;; if (e =? EINTR) || (e =? EAGAIN) then poll_loop k proc entropy else wret (-1)
      | _ =>
          if num r =? 1 then
            '(rc, entropy) <- (if proc then read_entropy_proc fuel entropy else read_entropy_ioctl entropy) ;;
            if negb (rc =? 0) then wret rc
            else if 128 <=? entropy then wret 0
            else poll_loop k proc entropy
          else wret (-1)
      end
  end.
(** L262-264: close(fd), again while errno is EINTR *)
Fixpoint close_loop (fuel : nat) : W Z :=
  match fuel with
  | O => wwait
  | S fuel =>
      r <- syscall (Close Random) ;;
      match r with
      | Fail _ => e <- get_errno ;; if e =? EINTR then close_loop fuel else wret (-1)
      | _ => wret 0
      end
  end.
(** L265-269: fclose(proc_file), again while errno is EINTR.  After fclose the stream is gone, whatever it returned
    (C11 7.21.5.1), and passing it to fclose again is undefined. *)
Definition fclose_loop : W Z :=
  r <- syscall (Close Proc) ;;
  match r with
  | Fail _ => e <- get_errno ;; if e =? EINTR then wbad else wret (-1)
  | _ => wret 0
  end.
(** L221-274, from the first look at the entropy count *)
Definition wait_rest (fuel : nat) (proc : bool) (entropy : Z) : W Z :=
  if 128 <=? entropy then wret 0 else                                           (* L221-223 *)
  ok <- open_w fuel Random ;;                                                   (* L225-231 *)
  if negb ok then wret (-1) else
  err <- poll_loop fuel proc entropy ;;
  rc <- close_loop fuel ;;
  rc <- (if proc then fclose_loop else wret rc) ;;
  if negb (err =? 0) then wret err else wret rc.                                (* L270-273 *)
(** L185-274 *)
Definition wait_for_entropy (fuel : nat) : W Z :=
  '(rc, entropy) <- read_entropy_ioctl 0 ;;                                     (* L199 *)
  e <- get_errno ;;
  if negb (rc =? 0) && ((e =? ENOTTY) || (e =? ENOSYS)) then                    (* L201 *)
    r <- syscall (Open Proc) ;;                                                 (* L213 *)
    match r with
    | Fail _ => wret (-1)
    | _ => wait_rest fuel true entropy
    end
  else if negb (rc =? 0) then wret (-1)
  else wait_rest fuel false entropy.

(** read(fd, buf + offset, count): the call and the bytes it stores *)
Definition read_w (offset count : Z) : W reply := fun s =>
  match syscall (Read count) s with
  | Fin r s =>
      let w := stored count r in
      match copy (buf s) offset w 0 (zlen w) with
      | Ret b => Fin r {| errno := errno s; buf := b; log := log s; replies := replies s |}
      | Undef => Bad s
      end
  | x => x
  end.
(** L291-300 *)
Fixpoint read_loop (fuel : nat) (offset n : Z) : W Z :=
  if n <=? 0 then wret 0 else
  match fuel with
  | O => wwait
  | S fuel =>
      let count := if n <=? SSIZE_MAX then n else SSIZE_MAX in
      r <- read_w offset count ;;
      match r with
      | Fail _ => e <- get_errno ;; if (e =? EAGAIN) || (e =? EINTR) then read_loop fuel offset n else wret (-1)
      | _ => let w := zlen (stored count r) in read_loop fuel (offset + w) (n - w)
      end
  end.
(** L278-304 *)
Definition randombytes_dev (fuel : nat) (n : Z) : W Z :=
  ok <- open_w fuel Urandom ;;
  if negb ok then wret (-1) else
  rc <- wait_for_entropy fuel ;;
  if rc =? -1 then wret (-1) else
  rc <- read_loop fuel 0 n ;;
  if negb (rc =? 0) then wret rc else
  _ <- syscall (Close Urandom) ;; wret 0.

(** a process that calls randombytes once for each of the sizes [ns], whatever it returns *)
Fixpoint calls (fuel : nat) (ns : list Z) : W (list Z) :=
  match ns with
  | [] => wret []
  | n :: ns => c <- randombytes_dev fuel n ;; cs <- calls fuel ns ;; wret (c :: cs)
  end.
