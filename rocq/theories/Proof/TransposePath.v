(** The written transitions lead the decoder through the states of the tags in the order of the sequence. *)
From Verif Require Import Base.Bytes Model.Endian Model.Varint Model.Chunk Model.SimpleChunk Model.TransposeEncoder Model.TransposeDecoder.

(** ** Transitions as bytes *)
Definition expand1 (b : Z) : list nat := Z.to_nat (Z.shiftr b 2) :: repeat O (Z.to_nat (Z.land b 3)).
Definition expand (l : list Z) : list nat := flat_map expand1 l.
Lemma byte_split o k : 0 <= k <= 3 -> Z.shiftr (4 * o + k) 2 = o /\ Z.land (4 * o + k) 3 = k.
Proof.
  intros H. rewrite Z.shiftr_div_pow2 by lia. change 3 with (2 ^ 2 - 1). rewrite land_ones_mod by lia. change (2 ^ 2) with 4.
  split; Z.div_mod_to_equations; lia.
Qed.
Lemma expand_merge_some l : forall o k, 0 <= k <= 3 -> expand (merge (Some (4 * o + k)) l) = Z.to_nat o :: repeat O (Z.to_nat k) ++ l.
Proof.
  induction l as [|x l IH]; intros o k Hk; cbn [merge].
  - cbn [expand flat_map]. unfold expand1. destruct (byte_split o k Hk) as [-> ->]. reflexivity.
  - destruct (byte_split o k Hk) as [E1 E2]. rewrite E2. destruct (Nat.eqb_spec x 0) as [->|N]; [destruct (Z.ltb_spec k 3) as [Q|Q]|]; cbn [andb].
    + replace (4 * o + k + 1) with (4 * o + (k + 1)) by lia. rewrite IH by lia. f_equal.
      replace (Z.to_nat (k + 1)) with (Z.to_nat k + 1)%nat by lia. rewrite repeat_app, <- app_assoc. reflexivity.
    + unfold expand; cbn [flat_map]; fold expand. unfold expand1 at 1. rewrite E1, E2.
      change (Z.shiftl (Z.of_nat 0) 2) with (4 * Z.of_nat 0 + 0). fold (expand (merge (Some (4 * Z.of_nat 0 + 0)) l)). rewrite IH by lia. reflexivity.
    + unfold expand; cbn [flat_map]; fold expand. unfold expand1 at 1. rewrite E1, E2.
      rewrite Z.shiftl_mul_pow2 by lia. replace (Z.of_nat x * 2 ^ 2) with (4 * Z.of_nat x + 0) by lia.
      fold (expand (merge (Some (4 * Z.of_nat x + 0)) l)). rewrite IH by lia. rewrite Nat2Z.id. reflexivity.
Qed.
Lemma expand_merge l : expand (merge None l) = l.
Proof.
  destruct l as [|x l]; cbn [merge]; [reflexivity|]. rewrite Z.shiftl_mul_pow2 by lia. replace (Z.of_nat x * 2 ^ 2) with (4 * Z.of_nat x + 0) by lia.
  rewrite expand_merge_some by lia. rewrite Nat2Z.id. reflexivity.
Qed.
Lemma merge_bytes_some l : forall o k, 0 <= k <= 3 -> 0 <= o <= 63 -> Forall (fun x => (x <= 63)%nat) l -> bytes (merge (Some (4 * o + k)) l).
Proof.
  induction l as [|x l IH]; intros o k Hk Ho F; cbn [merge].
  - constructor; [red; lia|constructor].
  - inversion F as [|? ? F1 F2]; subst. destruct (byte_split o k Hk) as [E1 E2]. rewrite E2.
    destruct (Nat.eqb_spec x 0) as [->|N]; [destruct (Z.ltb_spec k 3) as [Q|Q]|]; cbn [andb].
    + replace (4 * o + k + 1) with (4 * o + (k + 1)) by lia. apply IH; auto; lia.
    + constructor; [red; lia|]. change (Z.shiftl (Z.of_nat 0) 2) with (4 * Z.of_nat 0 + 0). apply IH; auto; lia.
    + constructor; [red; lia|]. rewrite Z.shiftl_mul_pow2 by lia. replace (Z.of_nat x * 2 ^ 2) with (4 * Z.of_nat x + 0) by lia. apply IH; auto; lia.
Qed.
Lemma merge_bytes l : Forall (fun x => (x <= 63)%nat) l -> bytes (merge None l).
Proof.
  destruct l as [|x l]; cbn [merge]; [constructor|]. intros F; inversion F as [|? ? F1 F2]; subst.
  rewrite Z.shiftl_mul_pow2 by lia. replace (Z.of_nat x * 2 ^ 2) with (4 * Z.of_nat x + 0) by lia. apply merge_bytes_some; auto; lia.
Qed.
Lemma merge_length l : (length l <= 4 * length (merge None l))%nat.
Proof.
  rewrite <- (expand_merge l) at 1. generalize (merge None l). intros m. induction m as [|b m IH]; [cbn; lia|].
  unfold expand in *. cbn [flat_map length]. rewrite app_length. unfold expand1 at 1. cbn [length]. rewrite repeat_length.
  assert (0 <= Z.land b 3 <= 3). { change 3 with (2 ^ 2 - 1) at 1 2. rewrite land_ones_mod by lia. pose proof (Z.mod_pos_bound b (2 ^ 2) ltac:(lia)). lia. }
  lia.
Qed.

(** ** The decoder's loop as a walk *)
Fixpoint run_callbacks (num_records max_size : Z) (lengths : option nat) (l : list callback) (g : decoding) : option decoding :=
  match l with
  | [] => Some g
  | c :: l => match HandleNode num_records max_size lengths c g with None => None | Some g => run_callbacks num_records max_size lengths l g end
  end.
Inductive visits (nodes : list node) : nat -> list nat -> list callback -> Prop :=
| visits_end i n : nth_error nodes i = Some n -> n_implicit n = false -> visits nodes i [] [n_callback n]
| visits_implicit i n offs l : nth_error nodes i = Some n -> n_implicit n = true -> visits nodes (n_next n) offs l -> visits nodes i offs (n_callback n :: l)
| visits_offset i n o offs l : nth_error nodes i = Some n -> n_implicit n = false -> visits nodes (n_next n + o)%nat offs l ->
    visits nodes i (o :: offs) (n_callback n :: l).
Definition implicit_of (nodes : list node) (i : nat) : Z := match nth_error nodes i with Some n => if n_implicit n then 1 else 0 | None => 0 end.
Lemma decode_loop_visits out num_records max_size lengths nodes : forall i offs l, visits nodes i offs l ->
  forall fuel pending transitions g, (length l <= fuel)%nat -> offs = repeat O pending ++ expand transitions ->
  decode_loop out fuel num_records max_size lengths nodes i (Z.of_nat pending + implicit_of nodes i) transitions g = run_callbacks num_records max_size lengths l g.
Proof.
  assert (IM : forall i, (if match nth_error nodes i with Some n => n_implicit n | None => false end then 1 else 0) = implicit_of nodes i).
  { intros i. unfold implicit_of. destruct (nth_error nodes i); reflexivity. }
  assert (IM2 : forall i, (if match nth_error nodes i with Some n => n_implicit n | None => false end then 0 else 1) = 1 - implicit_of nodes i).
  { intros i. unfold implicit_of. destruct (nth_error nodes i) as [n|]; [destruct (n_implicit n)|]; reflexivity. }
  assert (IR : forall i, 0 <= implicit_of nodes i <= 1).
  { intros i. unfold implicit_of. destruct (nth_error nodes i) as [n|]; [destruct (n_implicit n)|]; lia. }
  induction 1 as [i n Hn Hi|i n offs l Hn Hi Hv IH|i n o offs l Hn Hi Hv IH]; intros fuel pending transitions g Hf Ho;
    (destruct fuel as [|fuel]; [cbn [length] in Hf; lia|]); cbn [decode_loop length run_callbacks] in *; rewrite Hn;
    (destruct (HandleNode num_records max_size lengths (n_callback n) g) as [g1|]; [|reflexivity]).
  - assert (pending = O /\ transitions = []) as [-> ->].
    { destruct pending; [|discriminate]. destruct transitions; [auto|]. discriminate. }
    unfold implicit_of. rewrite Hn, Hi. reflexivity.
  - assert (E : implicit_of nodes i = 1) by (unfold implicit_of; rewrite Hn, Hi; reflexivity). rewrite E.
    destruct (Z.eqb_spec (Z.of_nat pending + 1) 0); [lia|]. rewrite IM2.
    rewrite <- (IH fuel pending transitions g1); [|lia|exact Ho]. f_equal. lia.
  - assert (E : implicit_of nodes i = 0) by (unfold implicit_of; rewrite Hn, Hi; reflexivity). rewrite E.
    destruct pending as [|pending].
    + cbn [Z.of_nat Z.add Z.eqb]. cbn [repeat app] in Ho. destruct transitions as [|byte transitions]; [discriminate|].
      unfold expand in Ho; cbn [flat_map] in Ho. unfold expand1 at 1 in Ho. cbn [app] in Ho. injection Ho as Ho1 Ho2. subst o. rewrite IM.
      assert (0 <= Z.land byte 3). { change 3 with (2 ^ 2 - 1). rewrite land_ones_mod by lia. apply Z.mod_pos_bound. lia. }
      rewrite <- (IH fuel (Z.to_nat (Z.land byte 3)) transitions g1); [|lia|exact Ho2]. f_equal. lia.
    + cbn [repeat app] in Ho. injection Ho as -> Ho. destruct (Z.eqb_spec (Z.of_nat (S pending) + 0) 0); [lia|]. rewrite IM2.
      rewrite Nat.add_0_r in IH. rewrite <- (IH fuel pending transitions g1); [|lia|exact Ho]. f_equal. lia.
Qed.
(** NoOp nodes do nothing *)
Definition is_op (c : callback) : bool := match c with CNoOp => false | _ => true end.
Lemma run_ops num_records max_size lengths l : forall g,
  run_callbacks num_records max_size lengths l g = run_callbacks num_records max_size lengths (filter is_op l) g.
Proof.
  induction l as [|c l IH]; intros g; [reflexivity|]. cbn [run_callbacks filter].
  destruct (is_op c) eqn:E; cbn [run_callbacks].
  - destruct (HandleNode num_records max_size lengths c g); [apply IH|reflexivity].
  - destruct c; try discriminate. cbn [HandleNode]. apply IH.
Qed.

(** ** The encoder's transitions as a walk *)
Section Walk.
Variable max_transition : nat.
Variable machine : list state_info.
Variable tags : list tag_info.
Variable nodes : list node.
Variable cb : nat -> callback.

Record machine_ok : Prop := {
  m_source : forall p s cs, nth_error machine p = Some s -> s_source s = Some cs -> exists s', nth_error machine cs = Some s' /\ s_tag s' = None;
  m_private : forall t ti k d pos, nth_error tags t = Some ti -> In (k, d) (t_dests ti) -> d_pos d = Some pos ->
    exists s, nth_error machine pos = Some s /\ s_tag s = Some k;
  m_public : forall t ti pos, nth_error tags t = Some ti -> t_state ti = Some pos -> exists s, nth_error machine pos = Some s /\ s_tag s = Some t;
  m_noop : forall t ti pos, nth_error tags t = Some ti -> t_noop ti = Some pos -> exists s, nth_error machine pos = Some s /\ s_tag s = None }.
Hypothesis M : machine_ok.
(** How the nodes of the decoder come from the states of the encoder *)
Hypothesis nodes_ok : forall p s, nth_error machine p = Some s ->
  exists n, nth_error nodes p = Some n /\
    match s_tag s with
    | None => n_callback n = CNoOp /\ n_implicit n = false /\ s_base s = Some (n_next n)
    | Some t => exists ti, nth_error tags t = Some ti /\ n_callback n = cb t /\ n_implicit n = Nat.eqb (length (t_dests ti)) 1 /\
                  (forall b, t_base ti = Some b -> n_next n = b)
    end.

Definition noop_at (p b : nat) : Prop := exists s, nth_error machine p = Some s /\ s_tag s = None /\ s_base s = Some b.
Inductive goes : nat -> list nat -> nat -> Prop :=
| goes_one base o : goes base [o] (base + o)
| goes_more base o b offs pos : noop_at (base + o) b -> goes b offs pos -> goes base (o :: offs) pos.
Lemma goes_snoc base offs cs b o : goes base offs cs -> noop_at cs b -> goes base (offs ++ [o]) (b + o).
Proof.
  induction 1 as [base o1|base o1 b1 offs pos Hn Hg IH]; intros N; cbn [app].
  - eapply goes_more; [exact N|constructor].
  - eapply goes_more; [exact Hn|auto].
Qed.
Lemma goes_app base offs p b offs2 pos : goes base offs p -> noop_at p b -> goes b offs2 pos -> goes base (offs ++ offs2) pos.
Proof.
  induction 1 as [base o1|base o1 b1 offs q Hn Hg IH]; intros N G; cbn [app]; (eapply goes_more; [|eauto]; [eassumption]).
Qed.
Lemma checked_source_spec pos cs : checked_source max_transition machine pos = Some cs ->
  exists b, noop_at cs b /\ (b <= pos)%nat /\ (pos - b <= max_transition)%nat /\ base_of machine cs = Some b.
Proof.
  unfold checked_source, source_of, base_of. destruct (nth_error machine pos) as [s|] eqn:E; [|discriminate].
  destruct (s_source s) as [cs'|] eqn:E1; [|discriminate]. destruct (m_source M pos s cs' E E1) as (s' & E2 & E3). rewrite E2.
  destruct (s_base s') as [b|] eqn:E4; [|discriminate]. destruct (Nat.leb b pos && Nat.leb (pos - b) max_transition) eqn:Q; [|discriminate].
  intros EE; injection EE as <-. apply andb_true_iff in Q. destruct Q as [Q1 Q2]. apply Nat.leb_le in Q1, Q2. exists b. rewrite E2.
  split; [exists s'; auto|]. auto.
Qed.
Lemma path_goes fuel : forall base pos written w, path max_transition fuel machine base pos written = Some w ->
  exists offs, w = offs ++ written /\ goes base offs pos /\ Forall (fun o => (o <= max_transition)%nat) offs.
Proof.
  induction fuel as [|fuel IH]; intros base pos written w; cbn [path]; [discriminate|].
  destruct (Nat.ltb pos base || Nat.ltb max_transition (pos - base)) eqn:Q.
  - destruct (checked_source max_transition machine pos) as [cs|] eqn:C; [|discriminate].
    destruct (checked_source_spec _ _ C) as (b & N & H1 & H2 & Hb). rewrite Hb.
    intros E. destruct (IH _ _ _ _ E) as (offs & -> & G & F). exists (offs ++ [(pos - b)%nat]). split; [rewrite <- app_assoc; reflexivity|].
    split; [|apply Forall_app; split; [assumption|constructor; [assumption|constructor]]].
    replace pos with (b + (pos - b))%nat at 2 by lia. eapply goes_snoc; eassumption.
  - apply orb_false_iff in Q. destruct Q as [Q1 Q2]. apply Nat.ltb_ge in Q1, Q2. intros E; injection E as <-. exists [(pos - base)%nat].
    split; [reflexivity|]. split; [|constructor; [assumption|constructor]]. replace pos with (base + (pos - base))%nat at 2 by lia. constructor.
Qed.
Lemma goes_visits base offs pos : goes base offs pos -> forall i n offs' l, visits nodes pos offs' l ->
  nth_error nodes i = Some n -> n_implicit n = false -> n_next n = base ->
  exists l', visits nodes i (offs ++ offs') (n_callback n :: l') /\ filter is_op l' = filter is_op l.
Proof.
  induction 1 as [base o|base o b offs pos (s & Hs1 & Hs2 & Hs3) Hg IH]; intros i n offs' l V Hn Hi Hb.
  - exists l. split; [|reflexivity]. cbn [app]. eapply visits_offset; eauto. rewrite Hb. exact V.
  - destruct (nodes_ok _ _ Hs1) as (n2 & N1 & N2). rewrite Hs2 in N2. destruct N2 as (N2 & N3 & N4).
    rewrite Hs3 in N4. injection N4 as N4. destruct (IH (base + o)%nat n2 offs' l V N1 N3 (eq_sym N4)) as (l' & V' & F).
    exists (n_callback n2 :: l'). split; [|rewrite N2; exact F]. cbn [app]. eapply visits_offset; eauto. rewrite Hb. exact V'.
Qed.

Definition single (t : nat) : Prop := exists ti, nth_error tags t = Some ti /\ length (t_dests ti) = 1%nat.
Lemma find_dest_in key l d : find_dest key l = Some d -> In (key, d) l.
Proof.
  induction l as [|[k d'] l IH]; cbn [find_dest]; [discriminate|]. destruct (Nat.eqb_spec k key) as [->|N]; [intros E; injection E as <-; left; reflexivity|].
  intros E. right. auto.
Qed.
Lemma transition_spec prev tag offs : transition max_transition machine tags prev tag = Some offs ->
  (exists p, (exists s, nth_error machine p = Some s /\ s_tag s = Some tag) /\ (exists ti, nth_error tags prev = Some ti /\
     ((length (t_dests ti) = 1%nat /\ offs = [] /\ t_base ti = Some p) \/
      (length (t_dests ti) <> 1%nat /\ exists b, t_base ti = Some b /\ goes b offs p)))) /\ Forall (fun o => (o <= max_transition)%nat) offs.
Proof.
  unfold transition. destruct (nth_error tags prev) as [t|] eqn:Et; [|discriminate].
  destruct (Nat.eqb_spec (length (t_dests t)) 1) as [L|L].
  - destruct (t_base t) as [base|] eqn:Eb; [|discriminate]. destruct (nth_error machine base) as [[[tag'|] sb ss]|] eqn:Em; try discriminate.
    destruct (Nat.eqb_spec tag' tag) as [->|]; [|discriminate]. intros E; injection E as <-. split; [|constructor].
    exists base. split; [eexists; split; [exact Em|reflexivity]|]. exists t. split; [reflexivity|]. left. auto.
  - assert (PUB : forall x, match nth_error tags tag with
            | Some target => match t_state target with
                | Some pos => if negb (Nat.ltb pos (length machine)) then None
                    else match t_base t, t_noop t with
                      | None, _ => None
                      | Some base, None => path max_transition kWriteBufSize machine base pos []
                      | Some base, Some noop =>
                          match path max_transition kWriteBufSize machine base noop [], base_of machine noop with
                          | Some to_noop, Some noop_base =>
                              match path max_transition kWriteBufSize machine noop_base pos [] with
                              | None => None
                              | Some from_noop => Some (to_noop ++ from_noop)
                              end
                          | _, _ => None
                          end
                      end
                | None => None end
            | None => None end = Some x ->
       (exists p, (exists s, nth_error machine p = Some s /\ s_tag s = Some tag) /\ (exists b, t_base t = Some b /\ goes b x p)) /\ Forall (fun o => (o <= max_transition)%nat) x).
    { intros x. destruct (nth_error tags tag) as [target|] eqn:Eg; [|discriminate]. destruct (t_state target) as [pos|] eqn:Es; [|discriminate].
      destruct (negb (Nat.ltb pos (length machine))); [discriminate|]. destruct (t_base t) as [base|]; [|discriminate].
      destruct (t_noop t) as [noop|] eqn:En.
      - destruct (path max_transition kWriteBufSize machine base noop []) as [w1|] eqn:P1; [|discriminate].
        destruct (base_of machine noop) as [nb|] eqn:Eb; [|discriminate].
        destruct (path max_transition kWriteBufSize machine nb pos []) as [w2|] eqn:P2; [|discriminate]. intros E; injection E as <-.
        destruct (path_goes _ _ _ _ _ P1) as (o1 & -> & G1 & F1). destruct (path_goes _ _ _ _ _ P2) as (o2 & -> & G2 & F2). rewrite !app_nil_r.
        split; [|apply Forall_app; auto]. exists pos. split; [eapply (m_public M); eassumption|]. exists base. split; [reflexivity|].
        eapply goes_app; [exact G1| |exact G2]. destruct (m_noop M _ _ _ Et En) as (s & S1 & S2). exists s. split; [assumption|]. split; [assumption|].
        unfold base_of in Eb. rewrite S1 in Eb. exact Eb.
      - intros P1. destruct (path_goes _ _ _ _ _ P1) as (o1 & -> & G1 & F1). rewrite app_nil_r. split; [|assumption]. exists pos.
        split; [eapply (m_public M); eassumption|]. exists base. auto. }
    destruct (match find_dest tag (t_dests t) with Some d => d_pos d | None => None end) as [pos|] eqn:Ep.
    + destruct (t_base t) as [base|] eqn:Eb; [|discriminate]. destruct (Nat.ltb pos (length machine)); [|discriminate].
      intros P1. destruct (path_goes _ _ _ _ _ P1) as (o1 & -> & G1 & F1). rewrite app_nil_r. split; [|assumption]. exists pos.
      split; [|exists t; split; [reflexivity|]; right; split; [assumption|]; exists base; auto].
      destruct (find_dest tag (t_dests t)) as [d|] eqn:Ed; [|discriminate]. apply find_dest_in in Ed. eapply (m_private M); eassumption.
    + intros E. destruct (PUB _ E) as [(p & H1 & H2) F]. split; [|assumption]. exists p. split; [assumption|]. exists t. split; [reflexivity|]. right. auto.
Qed.
Lemma walk rest : forall prev p s offs, transitions max_transition machine tags prev rest = Some offs -> nth_error machine p = Some s -> s_tag s = Some prev ->
  ~ single (last (prev :: rest) O) ->
  (exists l, visits nodes p offs l /\ filter is_op l = filter is_op (map cb (prev :: rest))) /\ Forall (fun o => (o <= max_transition)%nat) offs.
Proof.
  induction rest as [|tag rest IH]; intros prev p s offs Et Hp Hs Hl; cbn [transitions] in Et.
  - injection Et as <-. split; [|constructor]. destruct (nodes_ok _ _ Hp) as (n & N1 & N2). rewrite Hs in N2. destruct N2 as (ti & N2 & N3 & N4 & N5).
    exists [n_callback n]. rewrite N3. split; [|reflexivity]. rewrite <- N3. constructor; [assumption|]. rewrite N4. apply Nat.eqb_neq.
    intros L. apply Hl. exists ti. auto.
  - destruct (transition max_transition machine tags prev tag) as [a|] eqn:E1; [|discriminate].
    destruct (transitions max_transition machine tags tag rest) as [b|] eqn:E2; [|discriminate]. injection Et as <-.
    destruct (transition_spec _ _ _ E1) as [(q & (sq & Q1 & Q2) & (ti & T1 & Hcase)) F1].
    destruct (IH tag q sq b E2 Q1 Q2 Hl) as [(l & V & Fl) F2]. split; [|apply Forall_app; auto].
    destruct (nodes_ok _ _ Hp) as (n & N1 & N2). rewrite Hs in N2. destruct N2 as (ti' & N2 & N3 & N4 & N5). rewrite T1 in N2. injection N2 as <-.
    assert (FF : forall l', filter is_op l' = filter is_op l -> filter is_op (n_callback n :: l') = filter is_op (map cb (prev :: tag :: rest))).
    { intros l' Fl'. change (map cb (prev :: tag :: rest)) with (cb prev :: map cb (tag :: rest)). cbn [filter]. rewrite N3, Fl', Fl. reflexivity. }
    destruct Hcase as [(L & -> & Hb)|(L & base & Hb & G)].
    + exists (n_callback n :: l). split; [|apply FF; reflexivity]. cbn [app]. eapply visits_implicit; [exact N1|rewrite N4, L; reflexivity|].
      rewrite (N5 _ Hb). exact V.
    + destruct (goes_visits _ _ _ G p n b l V N1) as (l' & V' & Fl'); [rewrite N4; apply Nat.eqb_neq; assumption|apply N5, Hb|].
      exists (n_callback n :: l'). split; [exact V'|apply FF, Fl'].
Qed.
End Walk.
