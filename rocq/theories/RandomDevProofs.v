(** Proofs about RandomDev.v. *)
From Coq Require Import ZifyBool ZifyNat.
From Verif Require Import Base Random RandomDev RandomDevSpec.
Local Open Scope Z_scope.

Definition sat {A} (m : W A) (s : st) (Q : A -> st -> Prop) (J K : st -> Prop) : Prop :=
  match m s with Fin a s' => Q a s' | Wait s' => J s' | Bad s' => K s' end.
Lemma sat_ret {A} (a : A) s (Q : A -> st -> Prop) (J K : st -> Prop) : Q a s -> sat (wret a) s Q J K.
Proof. exact (fun h => h). Qed.
Lemma sat_bind {A B} (m : W A) (k : A -> W B) s (Q : B -> st -> Prop) (J K : st -> Prop) : sat m s (fun a s' => sat (k a) s' Q J K) J K -> sat (wbind m k) s Q J K.
Proof. unfold sat, wbind. destruct (m s); exact (fun h => h). Qed.
Lemma sat_mono {A} (m : W A) s (Q Q' : A -> st -> Prop) (J J' K K' : st -> Prop) : sat m s Q J K -> (forall a s', Q a s' -> Q' a s') -> (forall s', J s' -> J' s') -> (forall s', K s' -> K' s') -> sat m s Q' J' K'.
Proof. unfold sat. destruct (m s); auto. Qed.
Lemma sat_errno {B} (k : Z -> W B) s (Q : B -> st -> Prop) (J K : st -> Prop) : sat (k (errno s)) s Q J K -> sat (wbind get_errno k) s Q J K.
Proof. exact (fun h => h). Qed.

(** the run from s to s' made the calls [tr] and left the buffer alone *)
Definition did (tr : list event) (s s' : st) : Prop := log s' = log s ++ tr /\ buf s' = buf s.
Lemma did_nil s : did [] s s.
Proof. split; [symmetry; apply app_nil_r|reflexivity]. Qed.
Lemma did_app t1 t2 a b c : did t1 a b -> did t2 b c -> did (t1 ++ t2) a c.
Proof. intros [L1 B1] [L2 B2]. split; [rewrite L2, L1, app_assoc; reflexivity|congruence]. Qed.
(** ... only calls that satisfy P *)
Definition only (P : event -> Prop) (s s' : st) : Prop := exists tr, did tr s s' /\ Forall P tr.
Lemma only_refl P s : only P s s.
Proof. exists []. split; [apply did_nil|constructor]. Qed.
Lemma only_trans P a b c : only P a b -> only P b c -> only P a c.
Proof. intros (t1 & D1 & F1) (t2 & D2 & F2). exists (t1 ++ t2). split; [eapply did_app; eassumption|apply Forall_app; split; assumption]. Qed.
Lemma only_weaken (P P' : event -> Prop) a b : (forall e, P e -> P' e) -> only P a b -> only P' a b.
Proof. intros HP (t & D & F). exists t. split; [exact D|]. eapply Forall_impl; [exact HP|exact F]. Qed.

Lemma sat_syscall c s (Q : reply -> st -> Prop) (J K : st -> Prop) : J s -> (forall r s', did [(c, r)] s s' -> (errno s' = match r with Fail (Some e) => e | _ => errno s end) -> Q r s') -> sat (syscall c) s Q J K.
Proof. intros HJ HQ. unfold sat, syscall. destruct (replies s) as [|r rs]; [exact HJ|]. apply HQ; [split; reflexivity|reflexivity]. Qed.

Lemma held_snoc f l e : held f (l ++ [e]) = hold f (held f l) e.
Proof. unfold held. now rewrite fold_left_app. Qed.
Lemma held_nonneg f l : 0 <= held f l.
Proof. induction l as [|e l IH] using rev_ind; [apply Z.le_refl|]. rewrite held_snoc. unfold hold. destruct e as [[] []]; try lia; destruct (same_file f f0); lia. Qed.
Lemma held_other f l tr : Forall (fun e => fst e <> Open f /\ fst e <> Close f) tr -> held f (l ++ tr) = held f l.
Proof.
  induction tr as [|e tr IH] using rev_ind; intros F; [now rewrite app_nil_r|]. apply Forall_app in F. destruct F as [F1 F2]. inversion F2 as [|? ? [N1 N2] _]; subst. rewrite app_assoc, held_snoc, IH by assumption. unfold hold. destruct e as [c r]. cbn [fst] in *.
  destruct c as [g|g| | | |]; try reflexivity; [destruct r; try reflexivity|]; destruct f, g; try reflexivity; congruence.
Qed.
Lemma held_fails f l tr : Forall (fun e => exists g x, e = (Open g, Fail x)) tr -> held f (l ++ tr) = held f l.
Proof. induction tr as [|e tr IH] using rev_ind; intros F; [now rewrite app_nil_r|]. apply Forall_app in F. destruct F as [F1 F2]. inversion F2 as [|? ? (g & x & ->) _]; subst. rewrite app_assoc, held_snoc, IH by assumption. reflexivity. Qed.
Lemma held_closes f l tr : held f l <= 1 -> tr <> [] -> Forall (fun e => fst e = Close f) tr -> held f (l ++ tr) = 0.
Proof.
  induction tr as [|e tr IH] using rev_ind; intros H1 NE F; [congruence|]. apply Forall_app in F. destruct F as [F1 F2]. inversion F2 as [|? ? E _]; subst. rewrite app_assoc, held_snoc. destruct e as [c r]. cbn [fst] in E. subst c.
  assert (0 <= held f (l ++ tr) <= 1). { split; [apply held_nonneg|]. destruct tr as [|x tr]; [rewrite app_nil_r; exact H1|]. rewrite IH; [lia|exact H1|congruence|exact F1]. }
  cbn [hold]. replace (same_file f f) with true by (destruct f; reflexivity). unfold event in *. lia.
Qed.

Lemma open_ok f s0 : forall fuel s, only (fun e => exists x, e = (Open f, Fail x)) s0 s ->
  sat (open_w fuel f) s (fun ok s' => if ok then exists s1 r, only (fun e => exists x, e = (Open f, Fail x)) s0 s1 /\ did [(Open f, r)] s1 s' /\ (forall x, r <> Fail x) else exists tr x, did (tr ++ [(Open f, Fail x)]) s0 s' /\ Forall (fun e => exists x, e = (Open f, Fail x)) tr)
    (only (fun e => exists x, e = (Open f, Fail x)) s0) (fun _ => False).
Proof.
  induction fuel as [|fuel IH]; intros s HS; cbn [open_w]; [exact HS|]. apply sat_bind, sat_syscall; [exact HS|]. intros r s' D E. destruct r as [e|v|bs].
  - assert (D': only (fun e => exists x, e = (Open f, Fail x)) s0 s') by (eapply only_trans; [exact HS|]; exists [(Open f, Fail e)]; split; [exact D|repeat constructor; eexists; reflexivity]).
    apply sat_errno. destruct (errno s' =? EINTR); [apply IH; exact D'|]. apply sat_ret. destruct HS as (tr & D1 & F1). exists tr, e. split; [eapply did_app; eassumption|exact F1].
  - apply sat_ret. exists s, (Num v). split; [exact HS|]. split; [exact D|congruence].
  - apply sat_ret. exists s, (Bytes bs). split; [exact HS|]. split; [exact D|congruence].
Qed.
Lemma open_held f g s s' : (exists s1 r, only (fun e => exists x, e = (Open f, Fail x)) s s1 /\ did [(Open f, r)] s1 s' /\ (forall x, r <> Fail x)) -> held g (log s') = held g (log s) + (if same_file g f then 1 else 0).
Proof.
  intros (s1 & r & (tr & [L1 _] & F) & [L2 _] & NF). rewrite L2, held_snoc, L1. rewrite held_fails by (eapply Forall_impl; [|exact F]; intros e [x ->]; exists f, x; reflexivity).
  destruct r as [x| |]; [exfalso; apply (NF x); reflexivity| |]; cbn [hold]; destruct (same_file g f); lia.
Qed.

(** calls that neither open nor close nor read *)
Definition asks (e : event) : Prop := match fst e with Ioctl | Scanf | Poll => True | _ => False end.
Lemma asks_held f s s' : only asks s s' -> held f (log s') = held f (log s).
Proof. intros (tr & [L _] & F). rewrite L. apply held_other. eapply Forall_impl; [|exact F]. intros [[] r] Hx; cbn in *; split; congruence || contradiction. Qed.
Definition asked (s s' : st) : Prop := exists tr, did tr s s' /\ Forall asks tr /\ Exists enough tr.
Lemma asked_only s s' : asked s s' -> only asks s s'.
Proof. intros (tr & D & F & _). exists tr. split; assumption. Qed.
Lemma only_asked a b c : only asks a b -> asked b c -> asked a c.
Proof. intros (t1 & D1 & F1) (t2 & D2 & F2 & X2). exists (t1 ++ t2). split; [eapply did_app; eassumption|]. split; [apply Forall_app; split; assumption|]. apply Exists_app. right. exact X2. Qed.
Lemma ask1 c r s s' : asks (c, r) -> did [(c, r)] s s' -> only asks s s'.
Proof. intros A D. exists [(c, r)]. split; [exact D|repeat constructor; exact A]. Qed.

(** an entropy reading that ends with a count of at least 128 has been told so *)
Definition read_post (s0 : st) (x : Z * Z) (s' : st) : Prop :=
  only asks s0 s' /\ (fst x = 0 \/ fst x = -1) /\ (fst x = 0 -> 128 <= snd x -> asked s0 s').
Lemma ioctl_ok s0 s ent (J K : st -> Prop) : only asks s0 s -> (forall s', only asks s0 s' -> J s') -> sat (read_entropy_ioctl ent) s (fun x s' => read_post s0 x s' /\ (fst x = -1 -> snd x = ent)) J K.
Proof.
  intros HS HJ. unfold read_entropy_ioctl. apply sat_bind, sat_syscall; [apply HJ; exact HS|]. intros r s' D _. apply sat_ret. assert (A: only asks s0 s') by (eapply only_trans; [exact HS|]; eapply ask1; [|exact D]; exact I).
  unfold read_post. destruct r as [e|v|bs]; cbn [fst snd num]; (split; [split; [exact A|]; split; [lia|]|]); try lia; intros; try lia; try reflexivity.
  eapply only_asked; [exact HS|]. exists [(Ioctl, Num v)]. split; [exact D|]. split; [repeat constructor|]. constructor. left. exists v. split; [reflexivity|assumption].
Qed.
Lemma proc_ok s0 ent (J K : st -> Prop) : (forall s', only asks s0 s' -> J s') -> forall fuel s, only asks s0 s -> sat (read_entropy_proc fuel ent) s (read_post s0) J K.
Proof.
  intros HJ. induction fuel as [|fuel IH]; intros s HS; cbn [read_entropy_proc]; [apply HJ; exact HS|]. apply sat_bind, sat_syscall; [apply HJ; exact HS|]. intros r s' D _. assert (A: only asks s0 s') by (eapply only_trans; [exact HS|]; eapply ask1; [|exact D]; exact I).
  destruct r as [e|v|bs].
  - apply sat_errno. destruct (errno s' =? EINTR); [apply IH; exact A|]. apply sat_ret. unfold read_post. split; [exact A|]. cbn [fst snd]. split; lia.
  - apply sat_ret. unfold read_post. split; [exact A|]. cbn [fst snd num]. split; [lia|]. intros _ Hv. eapply only_asked; [exact HS|]. exists [(Scanf, Num v)]. split; [exact D|]. split; [repeat constructor|]. constructor. right. exists v. split; [reflexivity|assumption].
  - apply sat_ret. unfold read_post. split; [exact A|]. cbn [fst snd num]. split; lia.
Qed.
Lemma poll_ok s0 (J K : st -> Prop) proc : (forall s', only asks s0 s' -> J s') -> forall fuel ent s, only asks s0 s ->
  sat (poll_loop fuel proc ent) s (fun c s' => only asks s0 s' /\ (c = 0 \/ c = -1) /\ (c = 0 -> asked s0 s')) J K.
Proof.
  intros HJ. induction fuel as [|fuel IH]; intros ent s HS; cbn [poll_loop]; [apply HJ; exact HS|]. apply sat_bind, sat_syscall; [apply HJ; exact HS|]. intros r s' D _. assert (A: only asks s0 s') by (eapply only_trans; [exact HS|]; eapply ask1; [|exact D]; exact I).
  assert (N: sat (if num r =? 1 then wbind (if proc then read_entropy_proc (S fuel) ent else read_entropy_ioctl ent) (fun x => let (rc, entropy) := x in if negb (rc =? 0) then wret rc else if 128 <=? entropy then wret 0 else poll_loop fuel proc entropy) else wret (-1)) s'
     (fun c s'' => only asks s0 s'' /\ (c = 0 \/ c = -1) /\ (c = 0 -> asked s0 s'')) J K).
  { destruct (num r =? 1); [|apply sat_ret; split; [exact A|]; split; lia]. apply sat_bind. eapply (sat_mono _ _ (read_post s0) _ J J K K); [| |exact (fun _ h => h)|exact (fun _ h => h)].
    - destruct proc; [apply proc_ok; assumption|]. eapply sat_mono; [apply (ioctl_ok s0 s' ent J K); assumption| | |]; [intros a s'' [h _]; exact h|auto|auto].
    - intros [rc en] s'' (A' & Hrc & HE). cbn [fst snd] in *. destruct (Z.eqb_spec rc 0) as [->|Hne]; cbn [negb].
      + destruct (Z.leb_spec 128 en); [apply sat_ret; split; [exact A'|]; split; [lia|]; intros _; apply HE; [reflexivity|assumption]|apply IH; exact A'].
      + apply sat_ret. split; [exact A'|]. split; [lia|]. intros; congruence. }
  destruct r as [e|v|bs]; [|exact N|exact N]. apply sat_errno. destruct ((errno s' =? EINTR) || (errno s' =? EAGAIN)); [apply IH; exact A|]. apply sat_ret. split; [exact A|]. split; lia.
Qed.
Lemma close_ok s0 (J K : st -> Prop) : (forall s', only (fun e => fst e = Close Random) s0 s' -> J s') -> forall fuel s, only (fun e => fst e = Close Random) s0 s ->
  sat (close_loop fuel) s (fun c s' => (c = 0 \/ c = -1) /\ exists tr, tr <> [] /\ did tr s0 s' /\ Forall (fun e => fst e = Close Random) tr) J K.
Proof.
  intros HJ. induction fuel as [|fuel IH]; intros s HS; cbn [close_loop]; [apply HJ; exact HS|]. apply sat_bind, sat_syscall; [apply HJ; exact HS|]. intros r s' D _.
  assert (A: exists tr, tr <> [] /\ did tr s0 s' /\ Forall (fun e => fst e = Close Random) tr).
  { destruct HS as (t & D0 & F0). exists (t ++ [(Close Random, r)]). split; [destruct t; discriminate|]. split; [eapply did_app; eassumption|apply Forall_app; split; [exact F0|repeat constructor]]. }
  destruct r as [e|v|bs]; [|apply sat_ret; split; [left; reflexivity|exact A]|apply sat_ret; split; [left; reflexivity|exact A]].
  apply sat_errno. destruct (errno s' =? EINTR); [|apply sat_ret; split; [right; reflexivity|exact A]]. apply IH. destruct A as (t & _ & D1 & F1). exists t. split; assumption.
Qed.

(** the calls of the entropy wait *)
Definition quiet (e : event) : Prop := fst e <> Open Urandom /\ fst e <> Close Urandom /\ is_read e = false.
Lemma asks_quiet e : asks e -> quiet e.
Proof. destruct e as [[] r]; cbn; try contradiction; intros _; split; try discriminate; (split; [discriminate|reflexivity]). Qed.
Lemma quiet_held s s' : only quiet s s' -> held Urandom (log s') = held Urandom (log s).
Proof. intros (tr & [L _] & F). rewrite L. apply held_other. eapply Forall_impl; [|exact F]. intros e (A & B & _). split; assumption. Qed.
Lemma open_fail_quiet f s s' : f <> Urandom -> only (fun e => exists x, e = (Open f, Fail x)) s s' -> only quiet s s'.
Proof. intros NF. apply only_weaken. intros e [x ->]. split; [cbn; congruence|]. split; [discriminate|reflexivity]. Qed.
Definition told (s s' : st) : Prop := exists tr, did tr s s' /\ Forall quiet tr /\ Exists enough tr.
(** undefined behaviour is an interrupted fclose *)
Definition refclose (s : st) : Prop := errno s = EINTR /\ exists l x, log s = l ++ [(Close Proc, Fail x)].

Definition wait_post (s : st) (c : Z) (s' : st) : Prop :=
  only quiet s s' /\ (c = 0 \/ c = -1) /\ held Random (log s') = 0 /\ (c = 0 -> told s s' /\ held Proc (log s') = held Proc (log s)).
Lemma told_only s s' : told s s' -> only quiet s s'.
Proof. intros (t & D & F & _). exists t. split; assumption. Qed.

Lemma rest_ok fuel proc ent s1 : held Random (log s1) = 0 -> (proc = true -> ent < 128 /\ 1 <= held Proc (log s1)) ->
  sat (wait_rest fuel proc ent) s1
    (fun c s' => only quiet s1 s' /\ (c = 0 \/ c = -1) /\ held Random (log s') = 0 /\ (c = 0 -> (128 <= ent /\ s' = s1 \/ ent < 128 /\ told s1 s') /\ held Proc (log s') = held Proc (log s1) - (if proc then 1 else 0)))
    (only quiet s1) (fun s' => only quiet s1 s' /\ refclose s').
Proof.
  intros H0 Hent. unfold wait_rest. destruct (Z.leb_spec 128 ent) as [h|h].
  { apply sat_ret. split; [apply only_refl|]. split; [lia|]. split; [exact H0|]. intros _. destruct proc; [destruct (Hent eq_refl); lia|]. split; [left; split; [assumption|reflexivity]|lia]. }
  apply sat_bind. eapply (sat_mono _ _ _ _ _ _ _ _ (open_ok Random s1 fuel s1 (only_refl _ _))); [|intros s'; apply open_fail_quiet; discriminate|contradiction].
  intros [] s2; cbn [negb].
  2:{ intros (tr & x & D & F). apply sat_ret. assert (Q: only quiet s1 s2).
      { apply (open_fail_quiet Random); [discriminate|]. exists (tr ++ [(Open Random, Fail x)]). split; [exact D|]. apply Forall_app. split; [exact F|repeat constructor; eexists; reflexivity]. }
      split; [exact Q|]. split; [lia|]. split; [|intros; lia]. destruct D as [L _]. rewrite L. rewrite held_fails; [exact H0|]. apply Forall_app. split; [eapply Forall_impl; [|exact F]; intros e [y ->]; exists Random, y; reflexivity|repeat constructor; exists Random, x; reflexivity]. }
  intros HO. pose proof (fun g => open_held Random g s1 s2 HO) as HH. assert (Q2: only quiet s1 s2).
  { destruct HO as (sx & r & O1 & D & _). eapply only_trans; [apply (open_fail_quiet Random _ _ ltac:(discriminate) O1)|]. exists [(Open Random, r)]. split; [exact D|]. repeat constructor; cbn; discriminate. }
  clear HO. apply sat_bind. eapply sat_mono; [apply (poll_ok s2 (only quiet s1) (fun _ => False) proc)| |exact (fun _ h => h)|contradiction].
  { intros s' A. eapply only_trans; [exact Q2|]. eapply only_weaken; [apply asks_quiet|exact A]. } { apply only_refl. }
  intros err s3 (A3 & Herr & HE). assert (Q3: only quiet s1 s3) by (eapply only_trans; [exact Q2|eapply only_weaken; [apply asks_quiet|exact A3]]).
  assert (CQ: forall s', only (fun e => fst e = Close Random) s3 s' -> only quiet s1 s'). { intros s' C. eapply only_trans; [exact Q3|]. eapply only_weaken; [|exact C]. intros [c r] E. cbn in E. subst c. split; [discriminate|]. split; [discriminate|reflexivity]. }
  apply sat_bind. eapply sat_mono; [apply (close_ok s3 (only quiet s1) (fun _ => False) CQ fuel s3 (only_refl _ _))| |exact (fun _ h => h)|contradiction].
  intros rc s4 (Hrc & tr4 & NE4 & D4 & F4). assert (Q4: only quiet s1 s4) by (apply CQ; exists tr4; split; assumption).
  assert (R4: held Random (log s4) = 0). { pose proof D4 as [L4 _]. rewrite L4. apply held_closes; [|exact NE4|exact F4]. rewrite (asks_held Random _ _ A3), HH, H0. cbn. lia. }
  assert (P4: held Proc (log s4) = held Proc (log s1)). { pose proof D4 as [L4 _]. rewrite L4. rewrite held_other by (eapply Forall_impl; [|exact F4]; intros [c r] E; cbn in *; subst c; split; discriminate). rewrite (asks_held Proc _ _ A3), HH. cbn. lia. }
  assert (T4: err = 0 -> told s1 s4).
  { intros E. destruct (HE E) as (t3 & D3 & F3 & X3). destruct Q2 as (t2 & D2 & F2). exists ((t2 ++ t3) ++ tr4). split; [eapply did_app; [eapply did_app; eassumption|exact D4]|]. split.
    - apply Forall_app. split; [apply Forall_app; split; [exact F2|eapply Forall_impl; [apply asks_quiet|exact F3]]|]. eapply Forall_impl; [|exact F4]. intros [c r] E'. cbn in E'. subst c. split; [discriminate|]. split; [discriminate|reflexivity].
    - apply Exists_app. left. apply Exists_app. right. exact X3. }
  destruct proc.
  - unfold fclose_loop. apply sat_bind. apply sat_bind, sat_syscall; [exact Q4|]. intros r s5 D5 _.
    assert (Q5: only quiet s1 s5) by (eapply only_trans; [exact Q4|]; exists [(Close Proc, r)]; split; [exact D5|repeat constructor; discriminate]).
    assert (POST: forall c, c = 0 \/ c = -1 -> (c = 0 -> err = 0) -> only quiet s1 s5 /\ (c = 0 \/ c = -1) /\ held Random (log s5) = 0 /\ (c = 0 -> (128 <= ent /\ s5 = s1 \/ ent < 128 /\ told s1 s5) /\ held Proc (log s5) = held Proc (log s1) - 1)).
    { intros c Hc He. split; [exact Q5|]. split; [exact Hc|]. pose proof D5 as [L5 _]. split; [rewrite L5, held_snoc; exact R4|]. intros E. destruct (Hent eq_refl) as [_ h0]. split.
      - right. split; [exact h|]. destruct (T4 (He E)) as (t & D & F & X). exists (t ++ [(Close Proc, r)]). split; [eapply did_app; eassumption|]. split; [apply Forall_app; split; [exact F|repeat constructor; discriminate]|apply Exists_app; left; exact X].
      - rewrite L5, held_snoc, P4. cbn [hold same_file]. lia. }
    assert (DONE: forall c, c = 0 \/ c = -1 -> sat (if negb (err =? 0) then wret err else wret c) s5 (fun c s' => only quiet s1 s' /\ (c = 0 \/ c = -1) /\ held Random (log s') = 0 /\ (c = 0 -> (128 <= ent /\ s' = s1 \/ ent < 128 /\ told s1 s') /\ held Proc (log s') = held Proc (log s1) - 1)) (only quiet s1) (fun s' => only quiet s1 s' /\ refclose s')).
    { intros c Hc. destruct (Z.eqb_spec err 0) as [->|Hne]; cbn [negb]; apply sat_ret; apply POST; auto. }
    destruct r as [e|v|bs]; [|apply sat_ret, DONE; left; reflexivity|apply sat_ret, DONE; left; reflexivity].
    apply sat_errno. destruct (Z.eqb_spec (errno s5) EINTR) as [EI|NI]; [|apply sat_ret, DONE; right; reflexivity].
    split; [exact Q5|]. split; [exact EI|]. destruct D5 as [L5 _]. exists (log s4), e. exact L5.
  - apply sat_bind, sat_ret. destruct (Z.eqb_spec err 0) as [->|Hne]; cbn [negb]; apply sat_ret; (split; [exact Q4|]; split; [assumption|]; split; [exact R4|]); intros E; [|congruence]. split; [right; split; [exact h|apply T4; reflexivity]|lia].
Qed.

Lemma wait_ok fuel s : held Random (log s) = 0 -> sat (wait_for_entropy fuel) s (wait_post s) (only quiet s) (fun s' => only quiet s s' /\ refclose s').
Proof.
  intros H0. unfold wait_for_entropy. apply sat_bind. eapply sat_mono; [apply (ioctl_ok s s 0 (only quiet s) (fun _ => False) (only_refl _ _))| |exact (fun _ h => h)|contradiction].
  { intros s'. apply only_weaken, asks_quiet. }
  intros [rc ent] s1 [(A1 & Hrc & HE) Hent]. cbn [fst snd] in *. apply sat_errno. pose proof (only_weaken _ _ _ _ asks_quiet A1) as Q1.
  assert (R1: held Random (log s1) = 0) by (rewrite (asks_held _ _ _ A1); exact H0). pose proof (asks_held Proc _ _ A1) as P1.
  destruct (Z.eqb_spec rc 0) as [->|Hne]; cbn [negb andb].
  - eapply sat_mono; [apply (rest_ok fuel false ent s1 R1); discriminate| | |].
    + intros c s' (Q & Hc & R & HZ). split; [eapply only_trans; eassumption|]. split; [exact Hc|]. split; [exact R|]. intros E. destruct (HZ E) as ([[h ->]|[h T]] & HP); (split; [|lia]).
      * destruct (HE eq_refl h) as (t & D & F & X). exists t. split; [exact D|]. split; [eapply Forall_impl; [apply asks_quiet|exact F]|exact X].
      * destruct Q1 as (t1 & D1 & F1). destruct T as (t & D & F & X). exists (t1 ++ t). split; [eapply did_app; eassumption|]. split; [apply Forall_app; split; assumption|apply Exists_app; right; exact X].
    + intros s' Q. eapply only_trans; eassumption.
    + intros s' [Q RF]. split; [eapply only_trans; eassumption|exact RF].
  - destruct ((errno s1 =? ENOTTY) || (errno s1 =? ENOSYS)); [|apply sat_ret; split; [exact Q1|]; split; [lia|]; split; [exact R1|]; intros; lia].
    apply sat_bind, sat_syscall; [exact Q1|]. intros r s2 D2 _. assert (Q2: only quiet s s2) by (eapply only_trans; [exact Q1|]; exists [(Open Proc, r)]; split; [exact D2|repeat constructor; discriminate]).
    pose proof D2 as [L2 _]. assert (R2: held Random (log s2) = 0) by (rewrite L2, held_snoc; cbn [hold]; destruct r; exact R1).
    assert (N: (forall x, r <> Fail x) -> sat (wait_rest fuel true ent) s2 (wait_post s) (only quiet s) (fun s' => only quiet s s' /\ refclose s')).
    { intros NF. assert (P2: held Proc (log s2) = held Proc (log s) + 1). { rewrite L2, held_snoc. destruct r as [x| |]; [exfalso; apply (NF x); reflexivity| |]; cbn [hold same_file]; lia. }
      rewrite (Hent ltac:(lia)). eapply sat_mono; [apply (rest_ok fuel true 0 s2 R2)| | |].
      - intros _. split; [lia|]. pose proof (held_nonneg Proc (log s)). lia.
      - intros c s' (Q & Hc & R & HZ). split; [eapply only_trans; eassumption|]. split; [exact Hc|]. split; [exact R|]. intros E. destruct (HZ E) as ([[h ->]|[h T]] & HP); [lia|]. split; [|lia].
        destruct Q2 as (t1 & D1 & F1). destruct T as (t & D & F & X). exists (t1 ++ t). split; [eapply did_app; eassumption|]. split; [apply Forall_app; split; assumption|apply Exists_app; right; exact X].
      - intros s' Q. eapply only_trans; eassumption.
      - intros s' [Q RF]. split; [eapply only_trans; eassumption|exact RF]. }
    destruct r as [e|v|bs]; [|apply N; congruence|apply N; congruence]. apply sat_ret. split; [exact Q2|]. split; [lia|]. split; [exact R2|]. intros; lia.
Qed.

(** the reads: [tr] has only reads, the buffer has received exactly what they stored *)
Definition reads (n : Z) (tr : list event) (s s' : st) (pre tl : list Z) : Prop :=
  log s' = log s ++ tr /\ Forall (fun e => is_read e = true) tr /\ zlen (got tr) <= n /\ buf s' = pre ++ got tr ++ slice tl (zlen (got tr)) (zlen tl - zlen (got tr)).
Lemma reads_nil n s pre tl : 0 <= n -> buf s = pre ++ tl -> reads n [] s s pre tl.
Proof. intros Hn E. split; [symmetry; apply app_nil_r|]. split; [constructor|]. cbn [got flat_map]. change (zlen (@nil Z)) with 0. split; [exact Hn|]. rewrite app_nil_l, Z.sub_0_r, slice_all by reflexivity. exact E. Qed.
Lemma stored_le k r : 0 <= k -> zlen (stored k r) <= k.
Proof. intros Hk. destruct r as [|v|bs]; cbn [stored]; try (change (zlen (@nil Z)) with 0; lia). pose proof (zlen_nonneg bs). rewrite zlen_slice; lia. Qed.
Lemma read_ok : forall fuel s pre tl n, 0 <= n <= zlen tl -> buf s = pre ++ tl ->
  sat (read_loop fuel (zlen pre) n) s (fun c s' => exists tr, reads n tr s s' pre tl /\ (c = 0 /\ zlen (got tr) = n \/ c = -1 /\ zlen (got tr) < n)) (fun s' => exists tr, reads n tr s s' pre tl) (fun _ => False).
Proof.
  induction fuel as [|fuel IH]; intros s pre tl n Hn HB; cbn [read_loop].
  - destruct (Z.leb_spec n 0); [apply sat_ret|]; exists []; [split; [|left; split; [reflexivity|change (zlen (got [])) with 0; lia]]|]; apply reads_nil; lia || assumption.
  - destruct (Z.leb_spec n 0); [apply sat_ret; exists []; split; [|left; split; [reflexivity|change (zlen (got [])) with 0; lia]]; apply reads_nil; lia || assumption|].
    cbv zeta. set (count := if n <=? SSIZE_MAX then n else SSIZE_MAX). assert (Hc: 0 <= count <= n) by (unfold count, SSIZE_MAX; destruct (Z.leb_spec n (2 ^ 63 - 1)); lia).
    apply sat_bind. unfold sat, read_w, syscall. destruct (replies s) as [|r rs]; [exists []; apply reads_nil; lia || assumption|]. cbv beta iota zeta. cbn [errno buf log replies].
    pose proof (stored_le count r ltac:(lia)) as Lw. pose proof (zlen_nonneg (stored count r)) as Lw0. pose proof (zlen_nonneg pre) as Lp. set (w := stored count r) in *.
    rewrite HB. rewrite copy_ok by (rewrite ?zlen_app; lia). rewrite (slice_all w) by reflexivity. rewrite (slice_app_l pre tl 0 (zlen pre)) by lia. rewrite (slice_all pre) by reflexivity. rewrite zlen_app, (slice_app_r pre tl (zlen pre + zlen w)) by lia.
    replace (zlen pre + zlen w - zlen pre) with (zlen w) by lia. replace (zlen pre + zlen tl - zlen pre - zlen w) with (zlen tl - zlen w) by lia.
    cbv beta iota. match goal with |- context [Build_st ?a ?b ?c ?d] => remember (Build_st a b c d) as s1 eqn:Es1 end.
    assert (E1: got [(Read count, r)] = w) by (cbn [got flat_map]; apply app_nil_r).
    assert (STEP: forall P Q : st -> Prop, (forall tr s', reads (n - zlen w) tr s1 s' (pre ++ w) (slice tl (zlen w) (zlen tl - zlen w)) -> reads n ((Read count, r) :: tr) s s' pre tl)).
    { intros _ _ tr s' (L & F & Hle & B). assert (EG: got ((Read count, r) :: tr) = w ++ got tr) by reflexivity. split; [rewrite L, Es1; cbn [log]; rewrite <- app_assoc; reflexivity|]. split; [constructor; [reflexivity|exact F]|]. rewrite EG, zlen_app. split; [lia|].
      rewrite B, <- !app_assoc. do 3 f_equal. pose proof (zlen_nonneg (got tr)). rewrite zlen_slice by lia. rewrite slice_slice by lia. f_equal. lia. }
    assert (IH': sat (read_loop fuel (zlen pre + zlen w) (n - zlen w)) s1 (fun c s' => exists tr, reads n tr s s' pre tl /\ (c = 0 /\ zlen (got tr) = n \/ c = -1 /\ zlen (got tr) < n)) (fun s' => exists tr, reads n tr s s' pre tl) (fun _ => False)).
    { rewrite <- zlen_app. eapply sat_mono; [apply (IH s1 (pre ++ w) (slice tl (zlen w) (zlen tl - zlen w)) (n - zlen w))| | |contradiction].
      - rewrite zlen_slice by lia. lia.
      - rewrite Es1. cbn [buf]. rewrite <- app_assoc. reflexivity.
      - intros c s' (tr & R & HC). exists ((Read count, r) :: tr). split; [apply (STEP (fun _ => True) (fun _ => True)); exact R|]. assert (EG: got ((Read count, r) :: tr) = w ++ got tr) by reflexivity. rewrite EG, zlen_app. lia.
      - intros s' (tr & R). exists ((Read count, r) :: tr). apply (STEP (fun _ => True) (fun _ => True)). exact R. }
    destruct r as [e|v|bs]; [|exact IH'|exact IH']. assert (W0: zlen w = 0) by reflexivity.
    assert (G: sat (if (errno s1 =? EAGAIN) || (errno s1 =? EINTR) then read_loop fuel (zlen pre) n else wret (-1)) s1 (fun c s' => exists tr, reads n tr s s' pre tl /\ (c = 0 /\ zlen (got tr) = n \/ c = -1 /\ zlen (got tr) < n)) (fun s' => exists tr, reads n tr s s' pre tl) (fun _ => False)); [|exact G].
    destruct ((errno s1 =? EAGAIN) || (errno s1 =? EINTR)).
    + rewrite W0, Z.add_0_r, Z.sub_0_r in IH'. exact IH'.
    + apply sat_ret. exists [(Read count, Fail e)]. split; [|right; split; [reflexivity|rewrite E1; lia]]. apply (STEP (fun _ => True) (fun _ => True)). rewrite W0. change w with (@nil Z). rewrite app_nil_r, Z.sub_0_r, Z.sub_0_r, (slice_all tl) by reflexivity. apply reads_nil; [lia|]. rewrite Es1. cbn [buf]. change w with (@nil Z). change (zlen (@nil Z)) with 0. rewrite app_nil_l, Z.sub_0_r, (slice_all tl) by reflexivity. reflexivity.
Qed.

Lemma guarded_none tr : Forall (fun e => is_read e = false) tr -> guarded tr.
Proof. intros F pre e post E R. subst tr. apply Forall_app in F. destruct F as [_ F]. inversion F; congruence. Qed.
Lemma guarded_app t1 t2 : Forall (fun e => is_read e = false) t1 -> Exists enough t1 -> guarded (t1 ++ t2).
Proof.
  intros F X pre e post E R. apply app_eq_app in E. destruct E as (l & [[E1 E2]|[E1 E2]]).
  - destruct l as [|x l]; [rewrite app_nil_r in E1; subst; exact X|]. exfalso. cbn [app] in E2. inversion E2; subst. apply Forall_app in F. destruct F as [_ F]. inversion F; congruence.
  - subst pre. apply Exists_app. left. exact X.
Qed.
Lemma got_none tr : Forall (fun e => is_read e = false) tr -> got tr = [].
Proof. induction 1 as [|[c r] tr Hx F IH]; [reflexivity|]. cbn [got flat_map]. fold (got tr). rewrite IH. destruct c; try reflexivity. discriminate. Qed.
Lemma got_app a b : got (a ++ b) = got a ++ got b.
Proof. unfold got. apply flat_map_app. Qed.
Lemma quiet_no_reads tr : Forall quiet tr -> Forall (fun e => is_read e = false) tr.
Proof. apply Forall_impl. intros e (_ & _ & h). exact h. Qed.

(** what one call of randombytes does, in all outcomes *)
Definition delivered (n : Z) (s : st) (tr : list event) (s' : st) : Prop :=
  log s' = log s ++ tr /\ guarded tr /\ zlen (got tr) <= n /\ buf s' = got tr ++ slice (buf s) (zlen (got tr)) (zlen (buf s) - zlen (got tr)).
Definition dev_post (n : Z) (s : st) (c : Z) (s' : st) : Prop :=
  exists tr, delivered n s tr s' /\ held Random (log s') = 0 /\
    ((c = 0 /\ zlen (got tr) = n /\ Exists enough tr /\ forall f, held f (log s') = held f (log s)) \/
     (c = -1 /\ (held Urandom (log s') = held Urandom (log s) + 1 \/ (exists l x, tr = l ++ [(Open Urandom, Fail x)]) /\ forall f, held f (log s') = held f (log s)))).
Lemma quiet_delivered n s s' : 0 <= n -> only (fun e => is_read e = false) s s' -> exists tr, delivered n s tr s'.
Proof.
  intros Hn (tr & [L B] & F). exists tr. split; [exact L|]. split; [apply guarded_none; exact F|]. rewrite (got_none tr F). change (zlen (@nil Z)) with 0. split; [exact Hn|]. rewrite app_nil_l, Z.sub_0_r, slice_all by reflexivity. exact B.
Qed.
Lemma dev_ok fuel n s : 0 <= n <= zlen (buf s) -> held Random (log s) = 0 ->
  sat (randombytes_dev fuel n) s (dev_post n s) (fun s' => exists tr, delivered n s tr s') (fun s' => (exists tr, delivered n s tr s') /\ refclose s').
Proof.
  intros Hn H0. unfold randombytes_dev. apply sat_bind. 
  assert (OF: forall s', only (fun e => exists x, e = (Open Urandom, Fail x)) s s' -> only (fun e => is_read e = false) s s') by (intros s'; apply only_weaken; intros e [x ->]; reflexivity).
  eapply (sat_mono _ _ _ _ _ _ _ _ (open_ok Urandom s fuel s (only_refl _ _))); [|intros s' O; apply quiet_delivered; [lia|apply OF; exact O]|contradiction].
  intros [] s1; cbn [negb].
  2:{ intros (tr & x & D & F). apply sat_ret. pose proof D as [L B]. exists (tr ++ [(Open Urandom, Fail x)]).
      assert (FF: Forall (fun e => exists x, e = (Open Urandom, Fail x)) (tr ++ [(Open Urandom, Fail x)])) by (apply Forall_app; split; [exact F|repeat constructor; eexists; reflexivity]).
      assert (NR: Forall (fun e => is_read e = false) (tr ++ [(Open Urandom, Fail x)])) by (eapply Forall_impl; [|exact FF]; intros e [y ->]; reflexivity).
      assert (HF: forall f, held f (log s1) = held f (log s)) by (intros f; rewrite L; apply held_fails; eapply Forall_impl; [|exact FF]; intros e [y ->]; exists Urandom, y; reflexivity).
      split; [|split; [rewrite HF; exact H0|right; split; [reflexivity|right; split; [exists tr, x; reflexivity|exact HF]]]].
      split; [exact L|]. split; [apply guarded_none; exact NR|]. rewrite (got_none _ NR). change (zlen (@nil Z)) with 0. split; [lia|]. rewrite app_nil_l, Z.sub_0_r, slice_all by reflexivity. exact B. }
  intros HO. pose proof (fun g => open_held Urandom g s s1 HO) as HH. assert (O1: only (fun e => is_read e = false) s s1).
  { destruct HO as (sx & r & O & D & _). eapply only_trans; [apply OF; exact O|]. exists [(Open Urandom, r)]. split; [exact D|repeat constructor]. }
  clear HO. assert (R1: held Random (log s1) = 0) by (rewrite HH, H0; reflexivity).
  assert (QN: forall s', only quiet s1 s' -> only (fun e => is_read e = false) s s'). { intros s' Q. eapply only_trans; [exact O1|]. eapply only_weaken; [|exact Q]. intros e (_ & _ & h). exact h. }
  apply sat_bind. eapply sat_mono; [apply (wait_ok fuel s1 R1)| | |].
  2:{ intros s' Q. apply quiet_delivered; [lia|]. apply QN. exact Q. }
  2:{ intros s' [Q RF]. split; [apply quiet_delivered; [lia|]; apply QN; exact Q|exact RF]. }
  intros rc s2 (Q2 & Hrc & R2 & HZ). destruct (Z.eqb_spec rc (-1)) as [->|Hne].
  { apply sat_ret. destruct (quiet_delivered n s s2 ltac:(lia) (QN _ Q2)) as (tr & D). exists tr. split; [exact D|]. split; [exact R2|]. right. split; [reflexivity|]. left. rewrite (quiet_held _ _ Q2), HH. reflexivity. }
  assert (rc = 0) by lia. subst rc. destruct (HZ eq_refl) as [T2 P2]. clear HZ Hne Hrc. destruct T2 as (t2 & [L2 B2] & F2 & X2). destruct O1 as (t1 & [L1 B1] & F1).
  apply quiet_no_reads in F2. assert (F12: Forall (fun e => is_read e = false) (t1 ++ t2)) by (apply Forall_app; split; assumption). assert (X12: Exists enough (t1 ++ t2)) by (apply Exists_app; right; exact X2).
  assert (RD: forall tr post s', reads n tr s2 s' [] (buf s) -> delivered n s ((t1 ++ t2) ++ tr) s' /\ got (((t1 ++ t2) ++ tr) ++ post) = got tr ++ got post).
  { intros tr post s' (L & F & Hle & B). assert (EG: got ((t1 ++ t2) ++ tr) = got tr) by (rewrite got_app, (got_none (t1 ++ t2)) by exact F12; reflexivity). split; [|rewrite got_app, EG; reflexivity]. split; [rewrite L, L2, L1, !app_assoc; reflexivity|]. split; [apply guarded_app; assumption|]. rewrite EG. split; [exact Hle|exact B]. }
  assert (H2: forall f, held f (log s2) = held f (log s) + (if same_file f Urandom then 1 else 0)).
  { intros f. destruct f; [rewrite (quiet_held _ _ Q2), HH; reflexivity|rewrite R2, H0; reflexivity|rewrite P2, HH; reflexivity]. }
  assert (HR: forall tr s' f, reads n tr s2 s' [] (buf s) -> held f (log s') = held f (log s2)).
  { intros tr s' f (L & F & _). rewrite L. apply held_other. eapply Forall_impl; [|exact F]. intros [c r] E. cbn in E. destruct c; try discriminate. split; discriminate. }
  apply sat_bind. change (read_loop fuel 0 n) with (read_loop fuel (zlen (@nil Z)) n). eapply sat_mono; [apply (read_ok fuel s2 [] (buf s) n ltac:(lia))| | |contradiction].
  { rewrite B2, B1. reflexivity. }
  2:{ intros s' (tr & R). exists ((t1 ++ t2) ++ tr). apply (RD tr [] s' R). }
  intros c s3 (tr & R & HC). destruct (RD tr [] s3 R) as [D3 _]. destruct HC as [[-> HG]|[-> HG]]; cbn [Z.eqb negb].
  - apply sat_bind, sat_syscall; [exists ((t1 ++ t2) ++ tr); exact D3|]. intros r s4 [L4 B4] _. apply sat_ret. exists (((t1 ++ t2) ++ tr) ++ [(Close Urandom, r)]). destruct (RD tr [(Close Urandom, r)] s3 R) as [_ EG]. change (got [(Close Urandom, r)]) with (@nil Z) in EG. rewrite app_nil_r in EG.
    destruct D3 as (L3 & G3 & Hle3 & B3). assert (EG3: got ((t1 ++ t2) ++ tr) = got tr) by (rewrite got_app, (got_none (t1 ++ t2)) by exact F12; reflexivity). rewrite EG3 in *.
    assert (H4: forall f, held f (log s4) = held f (log s)). { intros f. rewrite L4, held_snoc, (HR tr s3 f R), H2. pose proof (held_nonneg f (log s)). cbn [hold]. destruct (same_file f Urandom); lia. }
    split; [|split; [rewrite H4; exact H0|]].
    + split; [rewrite L4, L3, <- !app_assoc; reflexivity|]. split; [rewrite <- app_assoc; apply guarded_app; assumption|]. unfold event in *. rewrite EG. split; [exact Hle3|]. rewrite B4. exact B3.
    + left. split; [reflexivity|]. unfold event in *. rewrite EG. split; [exact HG|]. split; [rewrite <- app_assoc; apply Exists_app; left; exact X12|exact H4].
  - apply sat_ret. exists ((t1 ++ t2) ++ tr). split; [exact D3|]. split; [rewrite (HR tr s3 Random R); exact R2|]. right. split; [reflexivity|]. left. rewrite (HR tr s3 Urandom R), H2. reflexivity.
Qed.
