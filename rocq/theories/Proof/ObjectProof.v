From Verif Require Import Base.Bytes Model.Object Spec.ObjectSpec.

Section WithStatus.
Context {status : Type}.
Variable is_ok_status : status -> bool.
Variables ok_status closed_status : status.
Notation exec := (exec is_ok_status ok_status closed_status).
Notation run := (run is_ok_status ok_status closed_status).
Notation world := (@world status).
Notation op := (@op status).

Lemma op_induction (P : op -> Prop) :
  (forall x c, P (OConstruct x c)) -> (forall x y, P (OMoveConstruct x y)) -> (forall x y, P (OMoveAssign x y)) -> (forall x, P (ODestroy x)) ->
  (forall x c, P (OReset x c)) -> (forall x, P (OMarkNotFailed x)) -> (forall x s, P (OSetStatus x s)) -> (forall x a f s, P (OFail x a f s)) ->
  (forall x a s, P (OFailWithoutAnnotation x a s)) -> (forall x done, Forall P done -> P (OClose x done)) -> forall o, P o.
Proof.
  intros A1 A2 A3 A4 A5 A6 A7 A8 A9 A10. fix IH 1. intros [x c|x y|x y|x|x c|x|x s|x a f s|x a s|x done]; [apply A1|apply A2|apply A3|apply A4|apply A5|apply A6|apply A7|apply A8|apply A9|].
  apply A10. induction done as [|o done IHd]; constructor; [apply IH|exact IHd].
Qed.
Lemma exec_close x done w : exec (OClose x done) w =
  bind (is_open x w) (fun o => if negb o then bind (not_failed x w) (fun nf => Good (w, nf)) else bind (run done w) (MarkClosed x)).
Proof.
  cbn [Object.exec]. destruct (is_open x w) as [[|]| |]; cbn [bind negb]; [|reflexivity..].
  match goal with |- bind (?f done w) _ = _ => assert (forall l w, f l w = run l w) as E end.
  { induction l as [|o l IH]; intro w0; [reflexivity|]. cbn. destruct (exec o w0) as [a| |]; cbn [bind]; [apply IH|reflexivity..]. }
  rewrite E. reflexivity.
Qed.

(** ** The invariant *)
Record inv (w : world) : Prop := {
  inv_alloc : forall x p, status_ptr w x = Some p -> p = 0 \/ p = 1 \/ 1 < p /\ exists c, heap w p = Some c;
  inv_own : forall x y p, status_ptr w x = Some p -> status_ptr w y = Some p -> 1 < p -> x = y;
  inv_leak : forall p c, heap w p = Some c -> 1 < p /\ is_ok_status (fs_status c) = false /\ exists x, status_ptr w x = Some p }.
Definition lookup (x : nat) (w : world) : option view :=
  match status_ptr w x with
  | None => None
  | Some p => if p =? 0 then Some {| v_open := true; v_failure := None |}
              else if p =? 1 then Some {| v_open := false; v_failure := None |}
              else match heap w p with
                   | Some c => Some {| v_open := negb (fs_closed c); v_failure := Some (fs_status c) |}
                   | None => None
                   end
  end.
Lemma inv_empty : inv empty_world.
Proof. split; cbn; discriminate. Qed.
Lemma ptr_cases w x p : inv w -> status_ptr w x = Some p ->
  p = 0 \/ p = 1 \/ (p =? 0) = false /\ (p =? 1) = false /\ 1 < p /\ exists c, heap w p = Some c.
Proof. intros I E. destruct (inv_alloc w I x p E) as [A|[A|[A B]]]; [tauto..|]. right; right. repeat split; [lia..|exact B]. Qed.
Lemma lookup_exists w x p : inv w -> status_ptr w x = Some p -> exists v, lookup x w = Some v.
Proof.
  intros I E. unfold lookup. rewrite E. destruct (ptr_cases w x p I E) as [->|[->|(A & B & C & c & D)]]; cbn; eauto.
  rewrite A, B, D. eauto.
Qed.
Lemma lookup_seen w x v : lookup x w = Some v -> seen ok_status closed_status x w v.
Proof.
  unfold lookup, seen, ok, is_open, not_failed, get_status, get_ptr, deref, kOk, kClosedSuccessfully.
  destruct (status_ptr w x) as [p|]; [|discriminate]. cbn [bind].
  destruct (p =? 0) eqn:E0; [intros [= <-]; cbn; auto|]. destruct (p =? 1) eqn:E1; [intros [= <-]; cbn; auto|].
  destruct (heap w p) as [c|]; [|discriminate]. intros [= <-]. cbn. rewrite andb_false_r. auto.
Qed.
Lemma seen_lookup w x v : inv w -> seen ok_status closed_status x w v -> lookup x w = Some v.
Proof.
  intros I (A & B & C & D). assert (exists p, status_ptr w x = Some p) as [p E].
  { unfold ok, get_ptr in A. destruct (status_ptr w x) as [p|]; [eauto|discriminate]. }
  destruct (lookup_exists w x p I E) as [u L]. pose proof (lookup_seen _ _ _ L) as (A' & B' & C' & D'). rewrite L. f_equal.
  destruct u as [uo uf], v as [vo vf]; cbn in *. rewrite B in B'. injection B' as <-. f_equal.
  rewrite C in C'. rewrite D in D'. destruct uf, vf; [|discriminate..|reflexivity]. congruence.
Qed.

Lemma extensional w w' : (forall z, status_ptr w z = status_ptr w' z) -> (forall p, heap w p = heap w' p) -> inv w -> inv w' /\ forall z, lookup z w = lookup z w'.
Proof.
  intros S1 H1 I. split; [split|].
  - intros x p. rewrite <- S1, <- H1. exact (inv_alloc w I x p).
  - intros x y p. rewrite <- !S1. exact (inv_own w I x y p).
  - intros p c. rewrite <- H1. intro G. destruct (inv_leak w I p c G) as (A & B & x & C). split; [exact A|split; [exact B|]]. exists x. rewrite <- S1. exact C.
  - intro z. unfold lookup. rewrite S1. destruct (status_ptr w' z) as [p|]; [rewrite H1|]; reflexivity.
Qed.
(** ** Elementary changes *)
Definition changed (x : nat) (v : option view) (w w' : world) : Prop := forall y, lookup y w' = if Nat.eqb y x then v else lookup y w.
Lemma replace_ok w x p q (v : option view) : inv w -> status_ptr w x = Some p ->
  (q = None /\ v = None \/ q = Some 0 /\ v = Some {| v_open := true; v_failure := None |} \/ q = Some 1 /\ v = Some {| v_open := false; v_failure := None |}) ->
  exists w', DeleteStatus p (set_ptr x q w) = Good w' /\ inv w' /\ changed x v w w' /\ (forall y, status_ptr w' y = if Nat.eqb y x then q else status_ptr w y) /\
    (forall r, heap w' r = if (1 <? p) && (r =? p) then None else heap w r).
Proof.
  intros I E Q.
  assert (forall y r, (if Nat.eqb y x then q else status_ptr w y) = Some r -> 1 < r -> y <> x /\ status_ptr w y = Some r) as K.
  { intros y r H L. destruct (Nat.eqb_spec y x) as [->|N]; [|auto]. destruct Q as [[-> _]|[[-> _]|[-> _]]]; [discriminate|injection H; lia..]. }
  assert (forall r, q = Some r -> r = 0 \/ r = 1) as Q2.
  { intros r ->. destruct Q as [[? _]|[[[= ->] _]|[[= ->] _]]]; [discriminate|auto..]. }
  assert (forall h, match q with None => None | Some p => if p =? 0 then Some {| v_open := true; v_failure := @None status |} else if p =? 1 then Some {| v_open := false; v_failure := None |} else h p end = v) as Q3.
  { intro h. destruct Q as [[-> ->]|[[-> ->]|[-> ->]]]; reflexivity. }
  assert (p = 0 \/ p = 1 -> inv (set_ptr x q w) /\ changed x v w (set_ptr x q w)) as SM.
  { intro P. split; [split; cbn [heap status_ptr set_ptr]|].
    - intros y r H; destruct (Nat.eqb y x); [destruct (Q2 r H); auto|exact (inv_alloc w I y r H)].
    - intros y z r H1 H2 L; apply K in H1; [|exact L]; apply K in H2; [|exact L]; exact (inv_own w I y z r (proj2 H1) (proj2 H2) L).
    - intros r c H; destruct (inv_leak w I r c H) as (L1 & L2 & z & L3); split; [exact L1|split; [exact L2|]]; exists z.
      destruct (Nat.eqb_spec z x) as [->|N]; [exfalso; rewrite E in L3; injection L3; lia|exact L3].
    - intro y; unfold lookup; cbn [heap status_ptr set_ptr]; destruct (Nat.eqb y x); [apply Q3|reflexivity]. }
  unfold DeleteStatus, kOk, kClosedSuccessfully. destruct (ptr_cases w x p I E) as [->|[->|(A & B & C & c & D)]].
  1,2: cbn [negb andb Z.eqb]; destruct SM as [SM1 SM2]; [auto|]; exists (set_ptr x q w); split; [reflexivity|]; split; [exact SM1|]; split; [exact SM2|]; split; reflexivity.
  rewrite A, B. cbn [negb andb]. cbn [heap set_ptr]. rewrite D. eexists; split; [reflexivity|].
  cbn [set_heap set_ptr heap status_ptr]. split; [|split; [|split; [reflexivity|]]]; [split; cbn [heap status_ptr set_heap set_ptr]| |intro r; replace (1 <? p) with true by lia; reflexivity].
  - intros y r H. destruct (Nat.eqb_spec y x) as [->|N]; [destruct (Q2 r H); auto|].
    destruct (inv_alloc w I y r H) as [?|[?|[L G]]]; auto. right; right; split; [exact L|]. destruct (Z.eqb_spec r p) as [->|]; [|exact G].
    exfalso. apply N. exact (inv_own w I y x p H E L).
  - intros y z r H1 H2 L; apply K in H1; [|exact L]; apply K in H2; [|exact L]; exact (inv_own w I y z r (proj2 H1) (proj2 H2) L).
  - intros r c' H. destruct (Z.eqb_spec r p) as [->|N]; [discriminate|]. destruct (inv_leak w I r c' H) as (L1 & L2 & z & L3). split; [exact L1|split; [exact L2|]]. exists z.
    destruct (Nat.eqb_spec z x) as [->|]; [congruence|exact L3].
  - intro y. unfold lookup. cbn [heap status_ptr set_heap set_ptr]. destruct (Nat.eqb_spec y x) as [->|N]; [apply Q3|]. destruct (status_ptr w y) as [r|] eqn:Y; [|reflexivity].
    destruct (Z.eqb_spec r p) as [->|]; [|reflexivity]. exfalso. apply N. exact (inv_own w I y x p Y E C).
Qed.
Lemma cell_ok w x p c c' : inv w -> status_ptr w x = Some p -> 1 < p -> heap w p = Some c -> is_ok_status (fs_status c') = false ->
  inv (set_heap p (Some c') w) /\ changed x (Some {| v_open := negb (fs_closed c'); v_failure := Some (fs_status c') |}) w (set_heap p (Some c') w).
Proof.
  intros I E L H N. split; [split; cbn [heap status_ptr set_heap]|].
  - intros y r G. destruct (inv_alloc w I y r G) as [?|[?|[L1 [c1 L2]]]]; auto. right; right; split; [exact L1|]. destruct (r =? p); eauto.
  - exact (inv_own w I).
  - intros r c1 G. destruct (Z.eqb_spec r p) as [->|]; [|exact (inv_leak w I r c1 G)]. injection G as <-. eauto.
  - intro y. unfold lookup. cbn [heap status_ptr set_heap]. destruct (Nat.eqb_spec y x) as [->|D].
    + rewrite E. replace (p =? 0) with false by lia. replace (p =? 1) with false by lia. rewrite Z.eqb_refl. reflexivity.
    + destruct (status_ptr w y) as [r|] eqn:Y; [|reflexivity]. destruct (Z.eqb_spec r p) as [->|]; [|reflexivity].
      exfalso. apply D. exact (inv_own w I y x p Y E L).
Qed.
Lemma alloc_ok w x p fresh c : inv w -> status_ptr w x = Some p -> p = 0 \/ p = 1 -> heap w fresh = None -> 1 < fresh -> is_ok_status (fs_status c) = false ->
  let w' := set_ptr x (Some fresh) (set_heap fresh (Some c) w) in
  inv w' /\ changed x (Some {| v_open := negb (fs_closed c); v_failure := Some (fs_status c) |}) w w'.
Proof.
  intros I E P H L N w'.
  assert (forall y, status_ptr w y <> Some fresh) as F.
  { intros y G. destruct (inv_alloc w I y fresh G) as [?|[?|[_ [c1 ?]]]]; [lia..|congruence]. }
  split; [split; cbn [w' heap status_ptr set_heap set_ptr]|].
  - intros y r G. destruct (Nat.eqb y x).
    + injection G as <-. rewrite Z.eqb_refl. eauto.
    + destruct (inv_alloc w I y r G) as [?|[?|[L1 [c1 L2]]]]; auto. right; right; split; [exact L1|]. destruct (r =? fresh); eauto.
  - intros y z r G1 G2 L1. destruct (Nat.eqb_spec y x) as [->|Ny], (Nat.eqb_spec z x) as [->|Nz]; [reflexivity|exfalso; apply (F z); congruence|exfalso; apply (F y); congruence|].
    exact (inv_own w I y z r G1 G2 L1).
  - intros r c1 G. destruct (Z.eqb_spec r fresh) as [->|D].
    + injection G as <-. split; [exact L|split; [exact N|]]. exists x. rewrite Nat.eqb_refl. reflexivity.
    + destruct (inv_leak w I r c1 G) as (L1 & L2 & z & L3). split; [exact L1|split; [exact L2|]]. exists z.
      destruct (Nat.eqb_spec z x) as [->|]; [exfalso; rewrite E in L3; injection L3; lia|exact L3].
  - intro y. unfold lookup. cbn [w' heap status_ptr set_heap set_ptr]. destruct (Nat.eqb_spec y x) as [->|D].
    + replace (fresh =? 0) with false by lia. replace (fresh =? 1) with false by lia. rewrite Z.eqb_refl. reflexivity.
    + destruct (status_ptr w y) as [r|] eqn:Y; [|reflexivity]. destruct (Z.eqb_spec r fresh) as [->|]; [|reflexivity]. elim (F y Y).
Qed.
Lemma move_ok w x y p : inv w -> x <> y -> status_ptr w y = Some p -> (forall q, status_ptr w x = Some q -> q = 0 \/ q = 1) ->
  let w' := set_ptr x (Some p) (set_ptr y (Some 1) w) in
  inv w' /\ forall z, lookup z w' = if Nat.eqb z x then lookup y w else if Nat.eqb z y then Some {| v_open := false; v_failure := None |} else lookup z w.
Proof.
  intros I D Y X w'. split; [split; cbn [w' heap status_ptr set_ptr]|].
  - intros z r. destruct (Nat.eqb z x); [intros [= <-]; exact (inv_alloc w I y p Y)|]. destruct (Nat.eqb z y); [intros [= <-]; auto|exact (inv_alloc w I z r)].
  - intros z1 z2 r. destruct (Nat.eqb_spec z1 x) as [->|N1], (Nat.eqb_spec z2 x) as [->|N2]; [reflexivity|..].
    + intros [= ->]. destruct (Nat.eqb_spec z2 y) as [->|N3]; [intros [= <-]; lia|]. intros G L. elim N3. exact (inv_own w I z2 y r G Y L).
    + destruct (Nat.eqb_spec z1 y) as [->|N3]; [intros [= <-]; lia|]. intros G [= ->] L. elim N3. exact (inv_own w I z1 y r G Y L).
    + destruct (Nat.eqb_spec z1 y) as [->|N3]; [intros [= <-]; lia|]. destruct (Nat.eqb_spec z2 y) as [->|N4]; [intros ? [= <-]; lia|]. exact (inv_own w I z1 z2 r).
  - intros r c G. destruct (inv_leak w I r c G) as (L1 & L2 & z & L3). split; [exact L1|split; [exact L2|]].
    destruct (Nat.eqb_spec z y) as [->|N]; [exists x; rewrite Nat.eqb_refl; congruence|]. exists z.
    destruct (Nat.eqb_spec z x) as [->|]; [destruct (X r L3); lia|]. destruct (Nat.eqb_spec z y); [congruence|exact L3].
  - intro z. unfold lookup. cbn [w' heap status_ptr set_ptr]. destruct (Nat.eqb_spec z x) as [->|N1]; [rewrite Y; reflexivity|].
    destruct (Nat.eqb_spec z y) as [->|N2]; reflexivity.
Qed.

(** ** Operations.  [safe w r P]: no access to memory which is not allocated, and [P] for the result *)
Definition safe {A} (r : outcome A) (P : A -> Prop) : Prop := match r with Good a => P a | Misuse => True | BadMemory => False end.
Lemma safe_bind {A B} (r : outcome A) (f : A -> outcome B) P Q : safe r P -> (forall a, P a -> safe (f a) Q) -> safe (bind r f) Q.
Proof. destruct r; cbn; auto. Qed.
Lemma safe_good {A} (r : outcome A) a (P : A -> Prop) : r = Good a -> P a -> safe r P.
Proof. intros ->. auto. Qed.
Lemma get_ptr_safe (w : world) x : safe (get_ptr x w) (fun p => status_ptr w x = Some p).
Proof. unfold get_ptr. destruct (status_ptr w x); cbn; auto. Qed.
Lemma is_open_safe w x : inv w -> safe (is_open x w) (fun b => exists v, lookup x w = Some v /\ b = v_open v).
Proof.
  intro I. unfold is_open, get_ptr, kOk, kClosedSuccessfully, deref, lookup. destruct (status_ptr w x) as [p|] eqn:E; [|exact Logic.I]. cbn [bind].
  destruct (ptr_cases w x p I E) as [->|[->|(A & B & C & c & D)]]; cbn; eauto. rewrite A, B, D. cbn. eauto.
Qed.
Lemma not_failed_safe w x : inv w -> safe (not_failed x w) (fun b => exists v, lookup x w = Some v /\ b = match v_failure v with None => true | Some _ => false end).
Proof.
  intro I. unfold not_failed, get_ptr, kOk, kClosedSuccessfully, lookup. destruct (status_ptr w x) as [p|] eqn:E; [|exact Logic.I]. cbn [bind].
  destruct (ptr_cases w x p I E) as [->|[->|(A & B & C & c & D)]]; cbn; eauto. rewrite A, B, D. cbn. eauto.
Qed.
Definition open_view := {| v_open := true; v_failure := @None status |}.
Definition closed_view := {| v_open := false; v_failure := @None status |}.
Definition fresh_view (closed : bool) := {| v_open := negb closed; v_failure := @None status |}.

Lemma Construct_ok w x c : inv w -> safe (Construct x c w) (fun w' => inv w' /\ lookup x w = None /\ changed x (Some (fresh_view c)) w w').
Proof.
  intro I. unfold Construct, kOk, kClosedSuccessfully. destruct (status_ptr w x) as [p|] eqn:E; [exact Logic.I|]. cbn [safe].
  assert (forall y r, (if Nat.eqb y x then Some (if c then 1 else 0) else status_ptr w y) = Some r -> 1 < r -> status_ptr w y = Some r) as K.
  { intros y r. destruct (Nat.eqb y x); [|auto]. intros [= <-]. destruct c; lia. }
  split; [split; cbn [heap status_ptr set_ptr]|split].
  - intros y r H. destruct (Nat.eqb y x); [injection H as <-; destruct c; auto|exact (inv_alloc w I y r H)].
  - intros y z r H1 H2 L. exact (inv_own w I y z r (K _ _ H1 L) (K _ _ H2 L) L).
  - intros r cc H. destruct (inv_leak w I r cc H) as (L1 & L2 & z & L3). split; [exact L1|split; [exact L2|]]. exists z. destruct (Nat.eqb_spec z x) as [->|]; [congruence|exact L3].
  - unfold lookup. rewrite E. reflexivity.
  - intro y. unfold lookup. cbn [heap status_ptr set_ptr]. destruct (Nat.eqb y x); [destruct c; reflexivity|reflexivity].
Qed.
Lemma MoveConstruct_ok w x y : inv w -> safe (MoveConstruct x y w) (fun w' => inv w' /\ lookup x w = None /\ lookup y w <> None /\
  forall z, lookup z w' = if Nat.eqb z x then lookup y w else if Nat.eqb z y then Some closed_view else lookup z w).
Proof.
  intro I. unfold MoveConstruct, kClosedSuccessfully. destruct (status_ptr w x) as [p|] eqn:E; [exact Logic.I|].
  eapply safe_bind; [apply get_ptr_safe|]. intros p Y. cbn [safe].
  destruct (move_ok w x y p I) as [A B]; [congruence|exact Y|rewrite E; discriminate|].
  split; [exact A|]. split; [unfold lookup; rewrite E; reflexivity|]. split; [|exact B].
  destruct (lookup_exists w y p I Y) as [v V]. congruence.
Qed.
Lemma MoveAssign_ok w x y : inv w -> safe (MoveAssign x y w) (fun w' => inv w' /\ lookup x w <> None /\ lookup y w <> None /\
  forall z, lookup z w' = if Nat.eqb z x then lookup y w else if Nat.eqb z y then Some closed_view else lookup z w).
Proof.
  intro I. unfold MoveAssign, kClosedSuccessfully. eapply safe_bind; [apply get_ptr_safe|]. intros p Y. cbn [safe]. cbv zeta.
  destruct (lookup_exists w y p I Y) as [vy VY].
  destruct (Nat.eqb_spec x y) as [->|N].
  - unfold get_ptr. cbn [status_ptr set_ptr]. rewrite Nat.eqb_refl. cbn [bind].
    unfold DeleteStatus, kOk, kClosedSuccessfully. cbn [Z.eqb negb andb Pos.eqb safe].
    assert (forall z, status_ptr (set_ptr y (Some p) (set_ptr y (Some 1) w)) z = status_ptr w z) as S1.
    { intro z. cbn. destruct (Nat.eqb_spec z y) as [->|]; congruence. }
    assert (forall z, lookup z (set_ptr y (Some p) (set_ptr y (Some 1) w)) = lookup z w) as S2.
    { intro z. unfold lookup. rewrite S1. reflexivity. }
    split; [split|split; [congruence|split; [congruence|]]].
    + intros z r. rewrite S1. exact (inv_alloc w I z r).
    + intros z z' r. rewrite !S1. exact (inv_own w I z z' r).
    + intros r c H. destruct (inv_leak w I r c H) as (L1 & L2 & z & L3). split; [exact L1|split; [exact L2|]]. exists z. rewrite S1. exact L3.
    + intro z. rewrite S2. destruct (Nat.eqb_spec z y) as [->|]; reflexivity.
  - unfold get_ptr. cbn [status_ptr set_ptr]. destruct (Nat.eqb_spec x y); [contradiction|]. destruct (status_ptr w x) as [q|] eqn:E; [|exact Logic.I]. cbn [bind].
    (* the same as deleting the status of x first *)
    destruct (replace_ok w x q (Some 1) (Some closed_view) I E) as (w1 & D & I1 & C1 & P1 & H1); [auto|].
    destruct (move_ok w1 x y p I1 N) as [A B].
    { rewrite P1. destruct (Nat.eqb_spec y x); [congruence|exact Y]. }
    { intros r. rewrite P1, Nat.eqb_refl. intros [= <-]. auto. }
    assert (lookup y w1 = lookup y w) as LY by (rewrite C1; destruct (Nat.eqb_spec y x); [congruence|reflexivity]).
    assert (exists w2, DeleteStatus q (set_ptr x (Some p) (set_ptr y (Some 1) w)) = Good w2 /\
      (forall z, status_ptr (set_ptr x (Some p) (set_ptr y (Some 1) w1)) z = status_ptr w2 z) /\ (forall r, heap (set_ptr x (Some p) (set_ptr y (Some 1) w1)) r = heap w2 r)) as (w2 & G & X1 & X2).
    { unfold DeleteStatus, kOk, kClosedSuccessfully. destruct (ptr_cases w x q I E) as [->|[->|(A1 & A2 & A3 & c & A4)]].
      1,2: eexists; split; [reflexivity|]; cbn; split; [intro z; rewrite P1; destruct (Nat.eqb z x); reflexivity|exact H1].
      rewrite A1, A2. cbn [negb andb heap set_ptr]. rewrite A4. eexists; split; [reflexivity|]. cbn. split; [intro z; rewrite P1; destruct (Nat.eqb z x); reflexivity|].
      intro r. rewrite H1. replace (1 <? q) with true by lia. reflexivity. }
    rewrite G. cbn [safe]. destruct (extensional _ _ X1 X2 A) as [A' L']. split; [exact A'|]. destruct (lookup_exists w x q I E) as [vx VX].
    split; [congruence|split; [congruence|]]. intro z. rewrite <- L', B, LY. destruct (Nat.eqb_spec z x) as [->|Nx]; [reflexivity|].
    destruct (Nat.eqb z y); [reflexivity|]. rewrite C1. destruct (Nat.eqb_spec z x); [contradiction|reflexivity].
Qed.
Lemma replace_safe w x p closed : inv w -> status_ptr w x = Some p ->
  safe (DeleteStatus p (set_ptr x (Some (if closed : bool then 1 else 0)) w)) (fun w' => inv w' /\ changed x (Some (fresh_view closed)) w w').
Proof.
  intros I E. destruct (replace_ok w x p (Some (if closed then 1 else 0)) (Some (fresh_view closed)) I E) as (w' & D & I' & C & _); [destruct closed; auto|].
  rewrite D. split; assumption.
Qed.
Lemma Destroy_ok w x : inv w -> safe (Destroy x w) (fun w' => inv w' /\ changed x None w w').
Proof.
  intro I. unfold Destroy. eapply safe_bind; [apply get_ptr_safe|]. intros p E.
  destruct (replace_ok w x p None None I E) as (w' & D & I' & C & _); [auto|]. cbn beta. rewrite D. split; assumption.
Qed.
Lemma Reset_ok w x closed : inv w -> safe (Reset x closed w) (fun w' => inv w' /\ changed x (Some (fresh_view closed)) w w').
Proof. intro I. unfold Reset. eapply safe_bind; [apply get_ptr_safe|]. intros p E. exact (replace_safe w x p closed I E). Qed.
Lemma MarkNotFailed_ok w x : inv w -> safe (MarkNotFailed x w) (fun w' => inv w' /\ exists v, lookup x w = Some v /\
  changed x (Some {| v_open := v_open v; v_failure := None |}) w w').
Proof.
  intro I. unfold MarkNotFailed. eapply safe_bind; [apply is_open_safe, I|]. intros b (v & V & ->).
  eapply safe_bind; [apply get_ptr_safe|]. intros p E. cbn beta.
  pose proof (replace_safe w x p (negb (v_open v)) I E) as R. unfold kOk, kClosedSuccessfully.
  replace (if v_open v then 0 else 1) with (if negb (v_open v) then 1 else 0) by (destruct (v_open v); reflexivity).
  destruct (DeleteStatus _ _) as [w'| |]; [|exact Logic.I|exact R]. cbn in *. destruct R as [R1 R2]. split; [exact R1|]. exists v. split; [exact V|].
  unfold fresh_view in R2. rewrite negb_involutive in R2. exact R2.
Qed.
Lemma MarkClosed_ok w x : inv w -> safe (MarkClosed x w) (fun r => inv (fst r) /\ exists v, lookup x w = Some v /\
  changed x (Some {| v_open := false; v_failure := v_failure v |}) w (fst r) /\ snd r = match v_failure v with None => true | Some _ => false end).
Proof.
  intro I. unfold MarkClosed. eapply safe_bind; [apply get_ptr_safe|]. intros p E. cbn beta. unfold kOk, kClosedSuccessfully.
  destruct (lookup_exists w x p I E) as [v V]. destruct (ptr_cases w x p I E) as [->|[->|(A & B & C & c & D)]].
  1,2: cbn [Z.eqb orb Pos.eqb safe fst snd]; destruct (replace_ok w x _ (Some 1) (Some closed_view) I E) as (w' & R & I' & Ch & _); [auto|];
    injection R as <-; split; [exact I'|]; exists v; split; [exact V|]; unfold lookup in V; rewrite E in V; injection V as <-; split; [exact Ch|reflexivity].
  rewrite A, B. cbn [orb]. unfold deref. rewrite D. cbn [bind safe fst snd].
  destruct (inv_leak w I p c D) as (_ & N & _).
  destruct (cell_ok w x p c {| fs_closed := true; fs_status := fs_status c |} I E C D N) as [I' Ch]. split; [exact I'|]. exists v. split; [exact V|].
  unfold lookup in V. rewrite E, A, B, D in V. injection V as <-. split; [exact Ch|reflexivity].
Qed.
Lemma SetStatus_ok w x s : inv w -> safe (SetStatus is_ok_status x s w) (fun w' => inv w' /\ is_ok_status s = false /\ exists v s0, lookup x w = Some v /\ v_failure v = Some s0 /\
  changed x (Some {| v_open := v_open v; v_failure := Some s |}) w w').
Proof.
  intro I. unfold SetStatus. destruct (is_ok_status s) eqn:N; [exact Logic.I|]. eapply safe_bind; [apply get_ptr_safe|]. intros p E. cbn beta. unfold kOk, kClosedSuccessfully.
  destruct (ptr_cases w x p I E) as [->|[->|(A & B & C & c & D)]]; [exact Logic.I..|]. rewrite A, B. cbn [orb]. unfold deref. rewrite D. cbn [bind safe].
  destruct (cell_ok w x p c {| fs_closed := fs_closed c; fs_status := s |} I E C D N) as [I' Ch]. split; [exact I'|]. split; [reflexivity|].
  eexists _, _. split; [unfold lookup; rewrite E, A, B, D; reflexivity|]. split; [reflexivity|exact Ch].
Qed.
Lemma StateFail_ok w x fresh s v : inv w -> lookup x w = Some v -> v_failure v = None -> is_ok_status s = false ->
  safe (StateFail is_ok_status x fresh s w) (fun w' => inv w' /\ changed x (Some {| v_open := v_open v; v_failure := Some s |}) w w').
Proof.
  intros I V F N. unfold StateFail. rewrite N. eapply safe_bind; [apply get_ptr_safe|]. intros p E. cbn beta. unfold kOk, kClosedSuccessfully.
  assert ((p = 0 \/ p = 1) /\ v_open v = negb (p =? 1)) as [P O].
  { unfold lookup in V. rewrite E in V. destruct (ptr_cases w x p I E) as [->|[->|(A & B & C & c & D)]]; [injection V as <-; auto..|].
    rewrite A, B, D in V. injection V as <-. discriminate. }
  replace ((p =? 0) || (p =? 1)) with true by lia. destruct (heap w fresh) eqn:H; [exact Logic.I|]. destruct (fresh <=? 1) eqn:L; [exact Logic.I|]. cbn [safe].
  pose proof (alloc_ok w x p fresh {| fs_closed := p =? 1; fs_status := s |} I E P H ltac:(lia) N) as R. cbn in R. rewrite O. exact R.
Qed.
Definition failed_view (v : view) (s : status) : view :=
  {| v_open := v_open v; v_failure := match v_failure v with None => Some s | Some s0 => Some s0 end |}.
Lemma failed_same v (s s0 : status) : v_failure v = Some s0 -> failed_view v s = v.
Proof. destruct v as [o f]; unfold failed_view; cbn. intros ->. reflexivity. Qed.
Lemma failed_new v (s : status) : v_failure v = None -> failed_view v s = {| v_open := v_open v; v_failure := Some s |}.
Proof. destruct v as [o f]; unfold failed_view; cbn. intros ->. reflexivity. Qed.
Lemma same_changed x v (w : world) : lookup x w = Some v -> changed x (Some v) w w.
Proof. intros E y. destruct (Nat.eqb_spec y x) as [->|]; [exact E|reflexivity]. Qed.
Lemma FailWithoutAnnotation_ok w x fresh s : inv w -> safe (FailWithoutAnnotation is_ok_status x fresh s w) (fun w' => inv w' /\ is_ok_status s = false /\ exists v, lookup x w = Some v /\
  changed x (Some (failed_view v s)) w w').
Proof.
  intro I. unfold FailWithoutAnnotation. destruct (is_ok_status s) eqn:N; [exact Logic.I|]. eapply safe_bind; [apply not_failed_safe, I|]. intros b (v & V & ->).
  destruct (v_failure v) as [s0|] eqn:F; cbn [negb].
  - cbn. split; [exact I|split; [reflexivity|]]. exists v. split; [exact V|]. rewrite (failed_same v s s0 F). apply same_changed, V.
  - pose proof (StateFail_ok w x fresh s v I V F N) as R. destruct (StateFail _ _ _ _ _); cbn in *; [|auto..].
    destruct R as [R1 R2]. split; [exact R1|split; [reflexivity|]]. exists v. split; [exact V|]. rewrite (failed_new v s F). exact R2.
Qed.
Lemma Fail_ok w x fresh f s : inv w -> safe (Fail is_ok_status ok_status closed_status x fresh f s w) (fun w' => inv w' /\ is_ok_status s = false /\ exists v, lookup x w = Some v /\
  changed x (Some (failed_view v (f s))) w w').
Proof.
  intro I. unfold Fail. destruct (is_ok_status s) eqn:N; [exact Logic.I|]. eapply safe_bind; [apply not_failed_safe, I|]. intros b (v & V & ->).
  destruct (v_failure v) as [s0|] eqn:F; cbn [negb].
  - cbn. split; [exact I|split; [reflexivity|]]. exists v. split; [exact V|]. rewrite (failed_same v (f s) s0 F). apply same_changed, V.
  - eapply safe_bind; [exact (StateFail_ok w x fresh s v I V F N)|]. intros w1 [I1 C1]. cbn beta.
    pose proof (C1 x) as L1. rewrite Nat.eqb_refl in L1. pose proof (lookup_seen _ _ _ L1) as (_ & _ & _ & G). cbn in G. rewrite G. cbn [bind].
    pose proof (SetStatus_ok w1 x (f s) I1) as R. destruct (SetStatus _ _ _ _) as [w2| |]; cbn in *; [|auto..].
    destruct R as (I2 & _ & v1 & s1 & V1 & _ & C2). split; [exact I2|split; [reflexivity|]]. exists v. split; [exact V|]. rewrite (failed_new v (f s) F).
    intro y. rewrite C2. rewrite L1 in V1. injection V1 as <-. cbn. destruct (Nat.eqb y x) eqn:Y; [reflexivity|]. rewrite C1, Y. reflexivity.
Qed.

(** ** Whole operations *)
Lemma exec_safe o : forall w, inv w -> safe (exec o w) (fun r => inv (fst r)).
Proof.
  assert (forall (r : outcome world) (b : bool) (P : world -> Prop), safe r (fun w => inv w /\ P w) -> safe (bind r (fun w => Good (w, b))) (fun r => inv (fst r))) as K.
  { intros r b P H. destruct r; cbn in *; tauto. }
  induction o as [x c|x y|x y|x|x c|x|x s|x a f s|x a s|x done IH] using op_induction; intros w I.
  1-9: cbn [Object.exec].
  - eapply K, Construct_ok, I.
  - eapply K, MoveConstruct_ok, I.
  - eapply K, MoveAssign_ok, I.
  - eapply K, Destroy_ok, I.
  - eapply K, Reset_ok, I.
  - eapply K, MarkNotFailed_ok, I.
  - eapply K, SetStatus_ok, I.
  - eapply K, Fail_ok, I.
  - eapply K, FailWithoutAnnotation_ok, I.
  - rewrite exec_close. eapply safe_bind; [apply is_open_safe, I|]. intros b (v & V & ->). destruct (v_open v); cbn [negb].
    + apply (safe_bind _ _ inv).
      * clear V v x. revert w I. induction IH as [|o done P _ IHd]; intros w I; [exact I|]. cbn. eapply safe_bind; [apply P, I|]. intros r R. apply IHd, R.
      * intros w1 I1. pose proof (MarkClosed_ok w1 x I1) as R. destruct (MarkClosed x w1); cbn in *; tauto.
    + eapply safe_bind; [apply not_failed_safe, I|]. intros b _. exact I.
Qed.
Lemma run_safe l : forall w, inv w -> safe (run l w) inv.
Proof. induction l as [|o l IH]; intros w I; [exact I|]. cbn. eapply safe_bind; [apply exec_safe, I|]. intros r R. apply IH, R. Qed.
Lemma exec_inv o w w' b : inv w -> exec o w = Good (w', b) -> inv w'.
Proof. intros I E. pose proof (exec_safe o w I) as H. rewrite E in H. exact H. Qed.
Lemma run_inv l w w' : inv w -> run l w = Good w' -> inv w'.
Proof. intros I E. pose proof (run_safe l w I) as H. rewrite E in H. exact H. Qed.
Lemma reachable_inv w : reachable is_ok_status ok_status closed_status w -> inv w.
Proof. intros [h H]. eapply run_inv; [apply inv_empty|exact H]. Qed.

(** What each operation does to what is seen of [x]: [P] is a property of views of [x] which operations preserve *)
Lemma preserved x (bad : op -> bool) (P : view -> Prop) :
  (forall y z, bad (OMoveConstruct y z) = false -> x = z -> P closed_view) ->
  (forall y z v, bad (OMoveAssign y z) = false -> x = y -> P v) ->
  (forall y z, bad (OMoveAssign y z) = false -> x = z -> P closed_view) ->
  bad (ODestroy x) = true ->
  (forall c, bad (OReset x c) = true) ->
  (bad (OMarkNotFailed x) = false -> forall v, P v -> P {| v_open := v_open v; v_failure := None |}) ->
  (forall s, bad (OSetStatus x s) = false -> forall v, P v -> P {| v_open := v_open v; v_failure := Some s |}) ->
  (forall s v, P v -> P (failed_view v s)) ->
  (forall v, P v -> P {| v_open := false; v_failure := v_failure v |}) ->
  (forall y done, bad (OClose y done) = existsb bad done) ->
  forall o w v, inv w -> lookup x w = Some v -> P v -> bad o = false -> safe (exec o w) (fun r => exists v', lookup x (fst r) = Some v' /\ P v').
Proof.
  intros H1 H2 H3 H4 H5 H6 H7 H8 H9 H10.
  assert (forall y u w w' v, changed y u w w' -> lookup x w = Some v -> P v -> (y = x -> exists v', u = Some v' /\ P v') -> exists v', lookup x w' = Some v' /\ P v') as KC.
  { intros y u w w' v C V PV Q. rewrite (C x). destruct (Nat.eqb_spec x y) as [->|]; [apply Q; reflexivity|eauto]. }
  assert (forall (r : outcome world) (b : bool) (Q R : world -> Prop), (forall w, Q w -> R w) -> safe r Q -> safe (bind r (fun w => Good (w, b))) (fun r => R (fst r))) as K.
  { intros r b Q R H S1. destruct r; cbn in *; auto. }
  induction o as [y c|y z|y z|y|y c|y|y s|y a f s|y a s|y done IH] using op_induction; intros w v I V PV B.
  1-9: cbn [Object.exec].
  - eapply (K _ _ _ (fun w' => exists v', lookup x w' = Some v' /\ P v')); [|apply Construct_ok, I]. intros w' (_ & N & C). apply (KC _ _ _ _ _ C V PV). intros ->. congruence.
  - eapply (K _ _ _ (fun w' => exists v', lookup x w' = Some v' /\ P v')); [|apply MoveConstruct_ok, I]. intros w' (_ & N & M & C). rewrite C.
    destruct (Nat.eqb_spec x y) as [->|]; [congruence|]. destruct (Nat.eqb_spec x z) as [->|]; [|eauto]. exists closed_view. split; [reflexivity|]. exact (H1 y z B eq_refl).
  - eapply (K _ _ _ (fun w' => exists v', lookup x w' = Some v' /\ P v')); [|apply MoveAssign_ok, I]. intros w' (_ & N & M & C). rewrite C.
    destruct (Nat.eqb_spec x y) as [->|]; [destruct (lookup z w) as [vz|]; [|contradiction]; exists vz; split; [reflexivity|exact (H2 y z vz B eq_refl)]|].
    destruct (Nat.eqb_spec x z) as [->|]; [|eauto]. exists closed_view. split; [reflexivity|]. exact (H3 y z B eq_refl).
  - eapply (K _ _ _ (fun w' => exists v', lookup x w' = Some v' /\ P v')); [|apply Destroy_ok, I]. intros w' (_ & C). apply (KC _ _ _ _ _ C V PV). intros ->. congruence.
  - eapply (K _ _ _ (fun w' => exists v', lookup x w' = Some v' /\ P v')); [|apply Reset_ok, I]. intros w' (_ & C). apply (KC _ _ _ _ _ C V PV). intros ->. rewrite H5 in B. discriminate.
  - eapply (K _ _ _ (fun w' => exists v', lookup x w' = Some v' /\ P v')); [|apply MarkNotFailed_ok, I]. intros w' (_ & u & U & C). apply (KC _ _ _ _ _ C V PV). intros ->.
    rewrite V in U. injection U as <-. eexists; split; [reflexivity|]. exact (H6 B v PV).
  - eapply (K _ _ _ (fun w' => exists v', lookup x w' = Some v' /\ P v')); [|apply SetStatus_ok, I]. intros w' (_ & _ & u & s0 & U & _ & C). apply (KC _ _ _ _ _ C V PV). intros ->.
    rewrite V in U. injection U as <-. eexists; split; [reflexivity|]. exact (H7 s B v PV).
  - eapply (K _ _ _ (fun w' => exists v', lookup x w' = Some v' /\ P v')); [|apply Fail_ok, I]. intros w' (_ & _ & u & U & C). apply (KC _ _ _ _ _ C V PV). intros ->.
    rewrite V in U. injection U as <-. eexists; split; [reflexivity|]. apply H8, PV.
  - eapply (K _ _ _ (fun w' => exists v', lookup x w' = Some v' /\ P v')); [|apply FailWithoutAnnotation_ok, I]. intros w' (_ & _ & u & U & C). apply (KC _ _ _ _ _ C V PV). intros ->.
    rewrite V in U. injection U as <-. eexists; split; [reflexivity|]. apply H8, PV.
  - rewrite exec_close. rewrite H10 in B. eapply safe_bind; [apply is_open_safe, I|]. intros b (u & U & ->). destruct (v_open u); cbn [negb].
    + apply (safe_bind _ _ (fun w => inv w /\ exists v', lookup x w = Some v' /\ P v')).
      * clear U u y. revert w v I V PV. induction IH as [|o done P1 _ IHd]; intros w v I V PV; [cbn; eauto|]. cbn in B |- *.
        apply orb_false_iff in B as [B1 B2]. pose proof (P1 w v I V PV B1) as Q. pose proof (exec_safe o w I) as Q2.
        destruct (exec o w) as [r| |]; cbn in *; [|auto..]. destruct Q as (v' & V' & PV'). exact (IHd B2 (fst r) v' Q2 V' PV').
      * intros w1 (I1 & v1 & V1 & PV1). pose proof (MarkClosed_ok w1 y I1) as R. destruct (MarkClosed y w1) as [r| |]; cbn in *; [|auto..].
        destruct R as (_ & u1 & U1 & C & _). apply (KC _ _ _ _ _ C V1 PV1). intros ->. rewrite V1 in U1. injection U1 as <-. eexists; split; [reflexivity|]. apply H9, PV1.
    + eapply safe_bind; [apply not_failed_safe, I|]. intros b _. cbn. eauto.
Qed.
Lemma run_preserved x (bad : op -> bool) (P : view -> Prop) :
  (forall o w v, inv w -> lookup x w = Some v -> P v -> bad o = false -> safe (exec o w) (fun r => exists v', lookup x (fst r) = Some v' /\ P v')) ->
  forall l w w' v, inv w -> lookup x w = Some v -> P v -> existsb bad l = false -> run l w = Good w' -> exists v', lookup x w' = Some v' /\ P v'.
Proof.
  intros K. induction l as [|o l IH]; intros w w' v I V PV B R.
  - injection R as <-. eauto.
  - cbn in B, R. apply orb_false_iff in B as [B1 B2]. pose proof (K o w v I V PV B1) as Q. pose proof (exec_safe o w I) as Q2.
    destruct (exec o w) as [r| |]; cbn in *; try discriminate. destruct Q as (v' & V' & PV'). exact (IH (fst r) w' v' Q2 V' PV' B2 R).
Qed.
Lemma sticky x w l w' v s : inv w -> lookup x w = Some v -> v_failure v = Some s -> existsb (replaces_failure x) l = false -> run l w = Good w' ->
  exists v', lookup x w' = Some v' /\ v_failure v' = Some s.
Proof.
  intros I V F B R. refine (run_preserved x (replaces_failure x) (fun v => v_failure v = Some s) _ l w w' v I V F B R).
  apply preserved; cbn [replaces_failure]; try rewrite Nat.eqb_refl; try reflexivity.
  - intros y z E ->. rewrite Nat.eqb_refl in E. discriminate.
  - intros y z u E ->. rewrite Nat.eqb_refl in E. discriminate.
  - intros y z E ->. rewrite Nat.eqb_refl, orb_true_r in E. discriminate.
  - discriminate.
  - discriminate.
  - intros s1 u U. unfold failed_view. cbn. rewrite U. reflexivity.
  - intros u U. exact U.
Qed.
Lemma closed_sticky x w l w' v : inv w -> lookup x w = Some v -> v_open v = false -> existsb (reopens x) l = false -> run l w = Good w' ->
  exists v', lookup x w' = Some v' /\ v_open v' = false.
Proof.
  intros I V F B R. refine (run_preserved x (reopens x) (fun v => v_open v = false) _ l w w' v I V F B R).
  apply preserved; cbn [reopens]; try rewrite Nat.eqb_refl; try reflexivity.
  - intros y z u E ->. rewrite Nat.eqb_refl in E. discriminate.
  - intros _ u U. exact U.
  - intros s _ u U. exact U.
  - intros s1 u U. exact U.
Qed.
Lemma unrelated_exec x o : forall w, inv w -> mentions x o = false -> safe (exec o w) (fun r => lookup x (fst r) = lookup x w).
Proof.
  assert (forall (r : outcome world) (b : bool) (Q R : world -> Prop), (forall w, Q w -> R w) -> safe r Q -> safe (bind r (fun w => Good (w, b))) (fun r => R (fst r))) as K.
  { intros r b Q R H S1. destruct r; cbn in *; auto. }
  assert (forall y u w w', changed y u w w' -> Nat.eqb x y = false -> lookup x w' = lookup x w) as KC.
  { intros y u w w' C N. rewrite (C x), N. reflexivity. }
  induction o as [y c|y z|y z|y|y c|y|y s|y a f s|y a s|y done IH] using op_induction; intros w I B; cbn [mentions] in B.
  1-9: cbn [Object.exec].
  - eapply (K _ _ _ (fun w' => lookup x w' = lookup x w)); [|apply Construct_ok, I]. intros w' (_ & _ & C). exact (KC _ _ _ _ C B).
  - eapply (K _ _ _ (fun w' => lookup x w' = lookup x w)); [|apply MoveConstruct_ok, I]. intros w' (_ & _ & _ & C). apply orb_false_iff in B as [B1 B2]. rewrite C, B1, B2. reflexivity.
  - eapply (K _ _ _ (fun w' => lookup x w' = lookup x w)); [|apply MoveAssign_ok, I]. intros w' (_ & _ & _ & C). apply orb_false_iff in B as [B1 B2]. rewrite C, B1, B2. reflexivity.
  - eapply (K _ _ _ (fun w' => lookup x w' = lookup x w)); [|apply Destroy_ok, I]. intros w' (_ & C). exact (KC _ _ _ _ C B).
  - eapply (K _ _ _ (fun w' => lookup x w' = lookup x w)); [|apply Reset_ok, I]. intros w' (_ & C). exact (KC _ _ _ _ C B).
  - eapply (K _ _ _ (fun w' => lookup x w' = lookup x w)); [|apply MarkNotFailed_ok, I]. intros w' (_ & u & _ & C). exact (KC _ _ _ _ C B).
  - eapply (K _ _ _ (fun w' => lookup x w' = lookup x w)); [|apply SetStatus_ok, I]. intros w' (_ & _ & u & s0 & _ & _ & C). exact (KC _ _ _ _ C B).
  - eapply (K _ _ _ (fun w' => lookup x w' = lookup x w)); [|apply Fail_ok, I]. intros w' (_ & _ & u & _ & C). exact (KC _ _ _ _ C B).
  - eapply (K _ _ _ (fun w' => lookup x w' = lookup x w)); [|apply FailWithoutAnnotation_ok, I]. intros w' (_ & _ & u & _ & C). exact (KC _ _ _ _ C B).
  - apply orb_false_iff in B as [B0 B]. rewrite exec_close. eapply safe_bind; [apply is_open_safe, I|]. intros b (u & U & ->). destruct (v_open u); cbn [negb].
    + apply (safe_bind _ _ (fun w1 => inv w1 /\ lookup x w1 = lookup x w)).
      * clear U u B0. revert w I. induction IH as [|o done P1 _ IHd]; intros w I; [cbn; auto|]. cbn in B |- *.
        apply orb_false_iff in B as [B1 B2]. pose proof (P1 w I B1) as Q. pose proof (exec_safe o w I) as Q2.
        destruct (exec o w) as [r| |]; cbn in *; [|auto..]. rewrite <- Q. exact (IHd B2 (fst r) Q2).
      * intros w1 (I1 & L1). pose proof (MarkClosed_ok w1 y I1) as R. destruct (MarkClosed y w1) as [r| |]; cbn in *; [|auto..].
        destruct R as (_ & u1 & U1 & C & _). rewrite <- L1. exact (KC _ _ _ _ C B0).
    + eapply safe_bind; [apply not_failed_safe, I|]. intros b _. reflexivity.
Qed.

(** ** Progress *)
Lemma safe_progress {A} (r : outcome A) P : safe r P -> r <> Misuse -> exists a, r = Good a.
Proof. destruct r; cbn; [eauto|congruence|contradiction]. Qed.
Lemma DeleteStatus_no_misuse p (w : world) : DeleteStatus p w <> Misuse.
Proof. unfold DeleteStatus. destruct (_ && _); [|discriminate]. destruct (heap w p); discriminate. Qed.
Lemma progress o w : inv w -> permitted is_ok_status ok_status closed_status w o -> exists r, exec o w = Good r.
Proof.
  intros I L. apply (safe_progress _ _ (exec_safe o w I)).
  assert (forall (r : outcome world) (b : bool), r <> Misuse -> bind r (fun w => Good (w, b)) <> Misuse) as K.
  { intros [r| |] b; cbn; congruence. }
  destruct o as [x c|x y|x y|x|x c|x|x s|x a f s|x a s|x done]; cbn [permitted] in L; [cbn [Object.exec]; apply K..|].
  - unfold Construct. destruct (status_ptr w x) as [p|] eqn:E; [exfalso; apply L; exists p; exact E|discriminate].
  - destruct L as [L [p Y]]. unfold MoveConstruct, get_ptr. rewrite Y. destruct (status_ptr w x) as [q|] eqn:E; [exfalso; apply L; exists q; exact E|discriminate].
  - destruct L as [[q X] [p Y]]. unfold MoveAssign, get_ptr. rewrite Y. cbn [bind status_ptr set_ptr]. destruct (Nat.eqb x y); [|rewrite X]; apply DeleteStatus_no_misuse.
  - destruct L as [p X]. unfold Destroy, get_ptr. rewrite X. apply DeleteStatus_no_misuse.
  - destruct L as [p X]. unfold Reset, get_ptr. rewrite X. apply DeleteStatus_no_misuse.
  - destruct L as [p X]. destruct (lookup_exists w x p I X) as [v V]. pose proof (lookup_seen _ _ _ V) as (_ & O & _). unfold MarkNotFailed, get_ptr. rewrite O, X. apply DeleteStatus_no_misuse.
  - destruct L as ([p X] & N & B). unfold SetStatus, not_failed, get_ptr, deref in *. rewrite B, X in *. cbn in *. injection N as N. rewrite N. destruct (heap w p); discriminate.
  - destruct L as ([p X] & H & A & B & C). destruct (lookup_exists w x p I X) as [v V]. pose proof (lookup_seen _ _ _ V) as (_ & _ & N & _). unfold Fail. rewrite B, N. cbn [bind].
    destruct (v_failure v) as [s0|] eqn:F; [discriminate|]. cbn [negb]. pose proof (StateFail_ok w x a s v I V F B) as S1.
    assert (StateFail is_ok_status x a s w <> Misuse) as M.
    { unfold StateFail, get_ptr. rewrite B, X, H. cbn [bind]. destruct (_ || _); [|discriminate]. replace (a <=? 1) with false by lia. discriminate. }
    destruct (StateFail is_ok_status x a s w) as [w1| |]; [|contradiction..]. cbn in S1 |- *. destruct S1 as [I1 C1].
    pose proof (C1 x) as L1. rewrite Nat.eqb_refl in L1. pose proof (lookup_seen _ _ _ L1) as (_ & _ & N1 & G1). rewrite G1. cbn [bind v_failure].
    unfold SetStatus, not_failed, get_ptr, deref in *. rewrite C. destruct (status_ptr w1 x) as [q|]; [|discriminate]. cbn in *. injection N1 as N1. rewrite N1. destruct (heap w1 q); discriminate.
  - destruct L as ([p X] & H & A & B). destruct (lookup_exists w x p I X) as [v V]. pose proof (lookup_seen _ _ _ V) as (_ & _ & N & _). unfold FailWithoutAnnotation. rewrite B, N. cbn [bind].
    destruct (v_failure v) as [s0|] eqn:F; [discriminate|]. cbn [negb].
    unfold StateFail, get_ptr. rewrite B, X, H. cbn [bind]. destruct (_ || _); [|discriminate]. replace (a <=? 1) with false by lia. discriminate.
  - destruct L as ([p X] & L). destruct (lookup_exists w x p I X) as [v V]. pose proof (lookup_seen _ _ _ V) as (_ & O & N & _). rewrite exec_close, O. cbn [bind].
    destruct (v_open v); cbn [negb]; [|rewrite N; discriminate]. destruct (L O) as (w1 & E & [q Q]). rewrite E. cbn [bind].
    unfold MarkClosed, get_ptr, deref. rewrite Q. cbn [bind]. destruct (_ || _); [discriminate|]. destruct (heap w1 q); discriminate.
Qed.
End WithStatus.
