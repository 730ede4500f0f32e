(** The list of entries. *)
From Coq Require Import Sorting.Sorted Sorting.Permutation.
From Verif Require Import Base.Bytes Model.Cleaner Spec.CleanerSpec.

Definition dl (e : entry) : Z := match deadline e with Some x => x | None => 0 end.
Definition ids (l : list entry) : list Z := map eid l.
Lemma it_eqb_refl a : it_eqb a a = true. Proof. destruct a; cbn; [apply Z.eqb_refl|reflexivity]. Qed.
Lemma it_eqb_ne a b : a <> b -> it_eqb a b = false.
Proof. destruct a as [x|], b as [y|]; cbn; intros N; try reflexivity; [apply Z.eqb_neq; congruence|congruence]. Qed.
Lemma it_eqb_eq a b : it_eqb a b = true -> a = b.
Proof. destruct a, b; cbn; intros; try discriminate; [f_equal; now apply Z.eqb_eq|reflexivity]. Qed.
Lemma deref_some l i e : deref l i = Some e -> In e l /\ eid e = i.
Proof. intros F. apply find_some in F. destruct F as (I & E). split; [exact I|now apply Z.eqb_eq]. Qed.
Lemma deref_in l e : NoDup (ids l) -> In e l -> deref l (eid e) = Some e.
Proof.
  unfold deref. induction l as [|x l IH]; intros N I; [destruct I|]. cbn. inversion N as [|? ? A B]; subst. destruct I as [->|I]; [now rewrite Z.eqb_refl|]. destruct (Z.eqb_spec (eid x) (eid e)) as [E|E]; [|now apply IH]. destruct A. rewrite E. now apply in_map.
Qed.
Lemma deref_iff l j e : NoDup (ids l) -> (deref l j = Some e <-> In e l /\ eid e = j).
Proof. intros N. split; [apply deref_some|]. intros (I & <-). now apply deref_in. Qed.
Lemma deref_ext l l' j : NoDup (ids l) -> NoDup (ids l') -> (forall e, In e l <-> In e l') -> deref l j = deref l' j.
Proof.
  intros N N' H. destruct (deref l j) as [e|] eqn:E.
  - apply deref_some in E. destruct E as (I & <-). symmetry. apply deref_in; [exact N'|]. now apply H.
  - destruct (deref l' j) as [e|] eqn:E'; [|reflexivity]. apply deref_some in E'. destruct E' as (I & <-). apply H in I. rewrite (deref_in l e N I) in E. discriminate.
Qed.
Lemma split_in (l : list entry) e : In e l -> exists l1 l2, l = l1 ++ e :: l2. Proof. apply in_split. Qed.
Lemma ids_app l1 l2 : ids (l1 ++ l2) = ids l1 ++ ids l2. Proof. apply map_app. Qed.
Lemma mid l1 e l2 : NoDup (ids (l1 ++ e :: l2)) -> ~ In (eid e) (ids l1) /\ ~ In (eid e) (ids l2) /\ NoDup (ids (l1 ++ l2)).
Proof.
  rewrite ids_app. cbn [ids map]. intros N. pose proof (NoDup_remove_1 _ _ _ N) as A. pose proof (NoDup_remove_2 _ _ _ N) as B. fold ids in *. rewrite ids_app. split; [|split; [|exact A]]; intros C; apply B; apply in_or_app; auto.
Qed.
Lemma in_ids l e : In e l -> In (eid e) (ids l). Proof. apply in_map. Qed.
Lemma begin_in l i : begin l = Some i -> In i (ids l). Proof. destruct l; cbn; intros [= <-]. now left. Qed.
Lemma begin_app l1 l2 : begin (l1 ++ l2) = match begin l1 with Some i => Some i | None => begin l2 end. Proof. destruct l1; reflexivity. Qed.
Lemma after_mid l1 e l2 : NoDup (ids (l1 ++ e :: l2)) -> after (l1 ++ e :: l2) (eid e) = Some (begin l2).
Proof.
  intros N. destruct (mid _ _ _ N) as (A & _). clear N. induction l1 as [|x l1 IH]; cbn; [now rewrite Z.eqb_refl|]. cbn in A. destruct (Z.eqb_spec (eid x) (eid e)); [destruct A; now left|]. apply IH. intros C. apply A. now right.
Qed.
Lemma erase_no l i : ~ In i (ids l) -> erase l i = l.
Proof.
  induction l as [|x l IH]; intros A; [reflexivity|]. cbn in *. destruct (Z.eqb_spec (eid x) i); [destruct A; now left|]. cbn. f_equal. apply IH. intros C. apply A. now right.
Qed.
Lemma erase_mid l1 e l2 : NoDup (ids (l1 ++ e :: l2)) -> erase (l1 ++ e :: l2) (eid e) = l1 ++ l2.
Proof.
  intros N. destruct (mid _ _ _ N) as (A & B & _). unfold erase. rewrite filter_app. cbn. rewrite Z.eqb_refl. cbn. f_equal; now apply erase_no.
Qed.
Lemma set_no l i d : ~ In i (ids l) -> set_deadline l i d = l.
Proof.
  induction l as [|x l IH]; intros A; [reflexivity|]. cbn in *. destruct (Z.eqb_spec (eid x) i); [destruct A; now left|]. f_equal. apply IH. intros C. apply A. now right.
Qed.
Lemma set_mid l1 e l2 d : NoDup (ids (l1 ++ e :: l2)) -> set_deadline (l1 ++ e :: l2) (eid e) d = l1 ++ Entry (eid e) (cleanee e) d :: l2.
Proof.
  intros N. destruct (mid _ _ _ N) as (A & B & _). unfold set_deadline. rewrite map_app. cbn. rewrite Z.eqb_refl. f_equal; [now apply set_no|f_equal; now apply set_no].
Qed.
Lemma begin_apart l1 x l2 : NoDup (ids (l1 ++ x :: l2)) -> forall k, begin (k ++ x :: l2) = begin l2 -> (exists p, l1 = p ++ k) -> False.
Proof.
  intros N k E (p & ->). rewrite begin_app in E. destruct k as [|y k]; cbn in E.
  - destruct (mid _ _ _ N) as (_ & B & _). apply B. apply begin_in. now symmetry.
  - symmetry in E. apply begin_in in E. rewrite <- app_assoc in N. cbn [app] in N. destruct (mid _ _ _ N) as (_ & B & _). apply B. rewrite ids_app. apply in_or_app. right. now right.
Qed.
Lemma before_mid l1 e l2 : NoDup (ids (l1 ++ e :: l2)) -> before (l1 ++ e :: l2) (begin l2) = Some (eid e).
Proof.
  intros N. assert (H : forall k, (exists p, l1 = p ++ k) -> before (k ++ e :: l2) (begin l2) = Some (eid e)); [|apply H; now exists []].
  induction k as [|x k IH]; intros (p & P); cbn [before app]; [now rewrite it_eqb_refl|]. rewrite it_eqb_ne; [apply IH; exists (p ++ [x]); now rewrite <- app_assoc|]. intros C. eapply begin_apart; [exact N|exact C|]. exists (p ++ [x]). now rewrite <- app_assoc.
Qed.
Lemma begin_apart' l1 l2 : NoDup (ids (l1 ++ l2)) -> forall p x k, l1 = p ++ x :: k -> begin (x :: k ++ l2) = begin l2 -> False.
Proof.
  intros N p x k -> E. cbn in E. symmetry in E. apply begin_in in E. rewrite <- app_assoc in N. cbn [app] in N. destruct (mid _ _ _ N) as (_ & B & _). apply B. rewrite ids_app. apply in_or_app. now right.
Qed.
Lemma insert_mid l1 l2 x : NoDup (ids (l1 ++ l2)) -> insert (l1 ++ l2) (begin l2) x = Some (l1 ++ x :: l2).
Proof.
  intros N. assert (H : forall k, (exists p, l1 = p ++ k) -> insert (k ++ l2) (begin l2) x = Some (k ++ x :: l2)); [|apply H; now exists []].
  induction k as [|y k IH]; intros (p & P).
  - cbn [app]. destruct l2; cbn [insert]; now rewrite it_eqb_refl.
  - cbn [app insert]. rewrite it_eqb_ne; [|intros C; eapply begin_apart'; [exact N|exact P|exact C]]. rewrite IH; [reflexivity|]. exists (p ++ [y]). now rewrite <- app_assoc.
Qed.
(** Moving an entry backward *)
Lemma splice_back l1 q e l2 : NoDup (ids (l1 ++ q ++ e :: l2)) -> splice (l1 ++ q ++ e :: l2) (begin (q ++ e :: l2)) (eid e) = Some (l1 ++ e :: q ++ l2).
Proof.
  intros N. unfold splice. destruct q as [|y q]; [cbn [app begin]; now rewrite it_eqb_refl|].
  assert (N' : NoDup (ids ((l1 ++ y :: q) ++ e :: l2))) by now rewrite <- app_assoc. destruct (mid _ _ _ N') as (A & B & C).
  rewrite it_eqb_ne; [|cbn; intros [= E]; apply A; rewrite ids_app; apply in_or_app; right; left; exact E].
  rewrite (deref_in _ e N); [|rewrite app_assoc; apply in_or_app; right; now left]. rewrite app_assoc at 1. rewrite (erase_mid _ _ _ N'), <- app_assoc. rewrite <- app_assoc in C.
  change (begin ((y :: q) ++ e :: l2)) with (begin ((y :: q) ++ l2)). now rewrite insert_mid.
Qed.
(** Moving an entry forward *)
Lemma splice_forward l1 e q l2 : NoDup (ids (l1 ++ e :: q ++ l2)) -> splice (l1 ++ e :: q ++ l2) (begin l2) (eid e) = Some (l1 ++ q ++ e :: l2).
Proof.
  intros N. unfold splice. destruct (mid _ _ _ N) as (A & B & C).
  rewrite it_eqb_ne; [|intros E; apply begin_in in E; apply B; rewrite ids_app; apply in_or_app; now right].
  rewrite (deref_in _ e N); [|apply in_or_app; right; now left]. rewrite (erase_mid _ _ _ N). rewrite app_assoc in *. now rewrite insert_mid, <- app_assoc.
Qed.
(** Permuting *)
Lemma NoDup_perm l l' : NoDup (ids l) -> Permutation.Permutation l l' -> NoDup (ids l').
Proof. intros N P. eapply Permutation.Permutation_NoDup; [|exact N]. now apply Permutation.Permutation_map. Qed.
Lemma deref_perm l l' j : NoDup (ids l) -> Permutation.Permutation l l' -> deref l' j = deref l j.
Proof.
  intros N P. apply deref_ext; [now apply (NoDup_perm l)|exact N|]. intros e. split; apply Permutation.Permutation_in; [now apply Permutation.Permutation_sym|exact P].
Qed.
Lemma deref_cons e l j : deref (e :: l) j = if j =? eid e then Some e else deref l j.
Proof. unfold deref. cbn. now rewrite Z.eqb_sym. Qed.
Lemma deref_mid l1 e l2 j : NoDup (ids (l1 ++ e :: l2)) -> deref (l1 ++ e :: l2) j = if j =? eid e then Some e else deref (l1 ++ l2) j.
Proof.
  intros N. rewrite <- (deref_cons e (l1 ++ l2) j). symmetry. apply deref_perm; [exact N|]. apply Permutation.Permutation_sym, Permutation.Permutation_middle.
Qed.
Lemma deref_not l j : ~ In j (ids l) -> deref l j = None.
Proof. intros N. destruct (deref l j) as [e|] eqn:E; [|reflexivity]. apply deref_some in E. destruct E as (I & <-). destruct N. now apply in_ids. Qed.
(** The loop *)
Definition is_nil {A} (l : list A) : bool := match l with [] => true | _ => false end.
Lemma le_dl e d : deadline e <> None -> le_time (deadline e) d = (dl e <=? d). Proof. unfold dl. destruct (deadline e); [reflexivity|congruence]. Qed.
Lemma place_ok idle rest d : forall p fuel, (length p < fuel)%nat -> NoDup (ids (idle ++ p ++ rest)) -> Forall (fun e => deadline e <> None) p ->
  exists q1 q2, p = q1 ++ q2 /\ place fuel (idle ++ p ++ rest) (begin (p ++ rest)) d (begin rest) = Some (begin (q2 ++ rest), is_nil q1) /\
  Forall (fun e => d < dl e) q2 /\ (q1 = [] \/ exists q0 x, q1 = q0 ++ [x] /\ dl x <= d).
Proof.
  assert (G : forall p q fuel, (length p < fuel)%nat -> NoDup (ids (idle ++ (p ++ q) ++ rest)) -> Forall (fun e => deadline e <> None) p -> Forall (fun e => d < dl e) q ->
    exists q1 q2, p ++ q = q1 ++ q2 /\ place fuel (idle ++ (p ++ q) ++ rest) (begin ((p ++ q) ++ rest)) d (begin (q ++ rest)) = Some (begin (q2 ++ rest), is_nil q1) /\
    Forall (fun e => d < dl e) q2 /\ (q1 = [] \/ exists q0 x, q1 = q0 ++ [x] /\ dl x <= d)).
  { induction p as [|x p IH] using rev_ind; intros q fuel L N F FQ; (destruct fuel as [|fuel]; [lia|]); cbn [place].
    - cbn [app]. rewrite it_eqb_refl. exists [], q. cbn. repeat split; auto.
    - rewrite <- (app_assoc p [x] q) in *. cbn [app] in *.
      assert (N1 : NoDup (ids ((idle ++ p) ++ x :: q ++ rest))) by (rewrite <- !app_assoc in *; exact N).
      rewrite it_eqb_ne; [|intros E; eapply (begin_apart p x (q ++ rest)); [|rewrite <- app_assoc in E; symmetry; exact E|exists []; reflexivity]].
      2:{ rewrite <- app_assoc in N1. rewrite ids_app in N1. clear - N1. induction (ids idle) as [|a l IHl]; [exact N1|]. apply IHl. now inversion N1. }
      replace (idle ++ (p ++ x :: q) ++ rest) with ((idle ++ p) ++ x :: q ++ rest) by (now rewrite <- !app_assoc).
      rewrite (before_mid _ _ _ N1), (deref_in _ x N1) by (apply in_or_app; right; now left).
      apply Forall_app in F. destruct F as (F1 & F2). inversion F2 as [|? ? DX _]; subst. rewrite (le_dl x d DX). destruct (Z.leb_spec (dl x) d) as [LE|LT].
      + exists (p ++ [x]), q. split; [now rewrite <- app_assoc|]. split; [|split; [exact FQ|right; now exists p, x]]. do 2 f_equal. destruct p; reflexivity.
      + rewrite app_length in L. cbn in L. destruct (IH (x :: q) fuel ltac:(lia)) as (q1 & q2 & E & P & R); [now rewrite <- !app_assoc in *|exact F1|constructor; [lia|exact FQ]|].
        exists q1, q2. split; [exact E|]. split; [|exact R]. rewrite <- P. rewrite <- !app_assoc. cbn [app begin]. reflexivity. }
  intros p fuel L N F. specialize (G p [] fuel L). rewrite !app_nil_r in G. cbn [app] in G. auto.
Qed.
