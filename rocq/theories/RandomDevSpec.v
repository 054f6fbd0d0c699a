(** Vocabulary for the properties of the /dev/urandom random source, stated on the log of its system calls. *)
From Verif Require Import Base Random RandomDev.
Local Open Scope Z_scope.

Definition same_file (f g : file) : bool := match f, g with Urandom, Urandom | Random, Random | Proc, Proc => true | _, _ => false end.
(** How many descriptors of file f a process holds after the calls of a log: a successful open adds one, a close
    gives one back, whatever close returns (Linux; fclose by the C standard). *)
Definition hold (f : file) (k : Z) (e : event) : Z :=
  match e with
  | (Open g, Fail _) => k
  | (Open g, _) => if same_file f g then k + 1 else k
  | (Close g, _) => if same_file f g then Z.max 0 (k - 1) else k
  | _ => k
  end.
Definition held (f : file) (l : list event) : Z := fold_left (hold f) l 0.

Definition is_read (e : event) : bool := match fst e with Read _ => true | _ => false end.
(** the system reports at least 128 bits of entropy *)
Definition enough (e : event) : Prop := (exists v, e = (Ioctl, Num v) /\ 128 <= v) \/ (exists v, e = (Scanf, Num v) /\ 128 <= v).
(** the bytes that the reads of a log stored, in order *)
Definition got (l : list event) : list Z := flat_map (fun e => match e with (Read k, r) => stored k r | _ => [] end) l.
(** no byte is read before the system has reported 128 bits of entropy in the same call *)
Definition guarded (tr : list event) : Prop := forall pre e post, tr = pre ++ e :: post -> is_read e = true -> Exists enough pre.
