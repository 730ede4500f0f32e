(** Binary search over any space of positions. *)
From Coq Require Import List.
From Verif Require Import Base.Bytes Model.BinarySearch Spec.BinarySearchSpec.

Lemma FOP_snoc {A} (R : A -> A -> Prop) l x : ForallOrdPairs R l -> Forall (fun e => R e x) l -> ForallOrdPairs R (l ++ [x]).
Proof.
  induction 1 as [|a l H1 H2 IH]; intros F; cbn; [constructor; constructor|]. inversion F; subst. constructor; [|apply IH; assumption].
  apply Forall_app. split; [assumption|]. constructor; [assumption|constructor].
Qed.

(** Last position with a given result. *)
Definition last_with (o : ordering) (log : list (Z * ordering)) : option Z :=
  match filter (fun e => match snd e, o with Less, Less | Greater, Greater | Equivalent, Equivalent | Unordered, Unordered => true | _, _ => false end) (rev log) with
  | [] => None
  | e :: _ => Some (fst e)
  end.
Lemma last_with_snoc o log p o' : last_with o (log ++ [(p, o')]) =
  match o', o with Less, Less | Greater, Greater | Equivalent, Equivalent | Unordered, Unordered => Some p | _, _ => last_with o log end.
Proof. unfold last_with. rewrite rev_app_distr. cbn. destruct o', o; reflexivity. Qed.
Lemma last_with_in o log p : last_with o log = Some p -> In (p, o) log.
Proof.
  unfold last_with. destruct (filter _ (rev log)) as [|[q o'] l] eqn:E; [discriminate|]. intros [= <-].
  assert (I : In (q, o') (filter (fun e => match snd e, o with Less, Less | Greater, Greater | Equivalent, Equivalent | Unordered, Unordered => true | _, _ => false end) (rev log))) by (rewrite E; left; reflexivity).
  apply filter_In in I as [I B]. apply in_rev in I. cbn in B. destruct o', o; try discriminate; exact I.
Qed.
Lemma last_with_none o log : last_with o log = None -> forall p, ~ In (p, o) log.
Proof.
  unfold last_with. destruct (filter _ (rev log)) as [|e l] eqn:E; [|discriminate]. intros _ p I.
  assert (X : In (p, o) (filter (fun e => match snd e, o with Less, Less | Greater, Greater | Equivalent, Equivalent | Unordered, Unordered => true | _, _ => false end) (rev log))).
  { apply filter_In. split; [apply in_rev; rewrite rev_involutive; exact I|]. destruct o; reflexivity. }
  rewrite E in X. destruct X.
Qed.

(** What the log says at the end of a search. *)
Section Search.
  Context {St : Type}.
  Variable Middle : Z -> Z -> St -> option (option Z * St).
  Variable test : Z -> St -> option ((ordering * Z) * St).
  Variable P Bd : Z -> Prop.
  Variable lo0 hi0 : Z.
  (** [R']: after Middle(). *)
  Variable R R' : list (Z * ordering) -> St -> Prop.
  Hypothesis RR' : forall log st, R log st -> R' log st.

  Definition outcome (res : ordering * Z) (log : list (Z * ordering)) : Prop :=
    ForallOrdPairs may_follow log /\ Forall (fun e => lo0 <= fst e < hi0 /\ P (fst e)) log /\
    ((exists a f, log = a ++ [(f, Equivalent)] /\ res = (Equivalent, f)) \/
     ((forall p, ~ In (p, Equivalent) log) /\
      res = match last_with Greater log, last_with Less log with
            | Some g, _ => (Greater, g) | None, Some _ => (Less, hi0) | None, None => (Unordered, hi0) end /\
      forall p, P p -> lo0 <= p < hi0 ->
        (exists l, last_with Less log = Some l /\ p <= l) \/ (exists g, last_with Greater log = Some g /\ g <= p) \/ In (p, Unordered) log)).

  Hypothesis MID : forall log st low high, R log st -> lo0 <= low -> high <= hi0 -> Bd low -> Bd high ->
    exists m st', Middle low high st = Some (m, st') /\
      match m with None => R log st' /\ forall p, P p -> ~ low <= p < high | Some m => R' log st' /\ low <= m < high /\ P m end.
  Hypothesis TEST : forall log st p, R' log st -> (forall q, ~ In (q, Equivalent) log) -> P p -> lo0 <= p < hi0 ->
    exists o n st', test p st = Some ((o, n), st') /\ R (log ++ [(p, o)]) st' /\
      match o with
      | Less | Unordered => p < n /\ Bd n /\ (n < hi0 -> P n) /\ (forall q, p < q < n -> ~ P q)
      | Equivalent | Greater => n = p
      end.
  Hypothesis PB : forall p, P p -> Bd p.

  Record inv (low high : Z) (gr : ordering * Z) (log : list (Z * ordering)) : Prop := {
    i_fop : ForallOrdPairs may_follow log;
    i_in : Forall (fun e => lo0 <= fst e < hi0 /\ P (fst e)) log;
    i_neq : forall p, ~ In (p, Equivalent) log;
    i_lo : lo0 <= low; i_hi : high <= hi0; i_blo : Bd low; i_bhi : Bd high;
    i_less : match last_with Less log with Some l => l < low /\ forall q, P q -> ~ l < q < low | None => low = lo0 end;
    i_ls : forall p, In (p, Less) log -> p < low;
    i_gs : forall p, In (p, Greater) log -> high <= p;
    i_greater : match last_with Greater log with Some g => high <= g | None => True end;
    i_cover : forall p, P p -> high <= p < match last_with Greater log with Some g => g | None => hi0 end -> In (p, Unordered) log;
    i_gr : gr = match last_with Greater log, last_with Less log with
                | Some g, _ => (Greater, g) | None, Some _ => (Less, hi0) | None, None => (Unordered, hi0) end
  }.

  Lemma searches : forall fuel,
    (forall low high gr log st, R log st -> inv low high gr log -> (forall p, In (p, Unordered) log -> p < low \/ high <= p) ->
       2 * Z.max 0 (high - low) + 1 <= Z.of_nat fuel ->
       exists res log' st', BinarySearch_again Middle DefaultEmpty test fuel low high gr st = Some (res, st') /\ R log' st' /\ outcome res log') /\
    (forall low high gr log st mbu middle uf, R' log st -> inv low high gr log ->
       (forall p, In (p, Unordered) log -> p < low \/ high <= p \/ mbu <= p < middle) ->
       low <= mbu <= middle -> middle < high -> Bd mbu -> P middle -> (forall p, P p -> mbu <= p < middle -> In (p, Unordered) log) -> (uf = false -> mbu = middle) ->
       2 * (mbu - low) + 2 * (high - middle) <= Z.of_nat fuel ->
       exists res log' st', BinarySearch_scan Middle DefaultEmpty test fuel low high gr mbu middle uf st = Some (res, st') /\ R log' st' /\ outcome res log').
  Proof.
    induction fuel as [|fuel [IHa IHs]]; (split; [intros low high gr log st RS IV UN FU|intros low high gr log st mbu middle uf RS IV UN MM MH BM PM CO UF FU]); [lia|lia| |].
    - cbn [BinarySearch_again]. destruct (MID log st low high RS (i_lo _ _ _ _ IV) (i_hi _ _ _ _ IV) (i_blo _ _ _ _ IV) (i_bhi _ _ _ _ IV)) as (m & st' & -> & M).
      destruct m as [m|].
      + destruct M as (RS' & M1 & M2). apply (IHs low high gr log); try assumption; try lia; auto.
        intros p I. destruct (UN p I); auto.
      + destruct M as [RS' M]. exists gr, log, st'. split; [reflexivity|]. split; [exact RS'|]. destruct IV. split; [assumption|]. split; [assumption|]. right. split; [assumption|]. split; [assumption|].
        intros p PP RNG. specialize (M p PP).
        destruct (Z_lt_ge_dec p low) as [PL|PL].
        * destruct (last_with Less log) as [l|]; [|lia]. left. exists l. split; [reflexivity|]. destruct i_less0 as [L1 L2]. specialize (L2 p PP). lia.
        * right. specialize (i_cover0 p PP). destruct (last_with Greater log) as [g|]; [destruct (Z_lt_ge_dec p g); [right; apply i_cover0; lia|left; exists g; split; [reflexivity|lia]]|right; apply i_cover0; lia].
    - cbn [BinarySearch_scan].
      assert (MR : lo0 <= middle < hi0) by (destruct IV; lia).
      destruct (TEST log st middle RS (i_neq _ _ _ _ IV) PM MR) as (o & n & st' & -> & RS' & N).
      assert (FOP' : ForallOrdPairs may_follow (log ++ [(middle, o)])).
      { apply FOP_snoc; [apply (i_fop _ _ _ _ IV)|]. apply Forall_forall. intros [p o'] I. unfold may_follow. cbn [fst snd].
        pose proof (i_ls _ _ _ _ IV p). pose proof (i_gs _ _ _ _ IV p). pose proof (i_neq _ _ _ _ IV p). specialize (UN p).
        destruct o'; repeat split; try congruence; intuition lia. }
      assert (IN' : Forall (fun e => lo0 <= fst e < hi0 /\ P (fst e)) (log ++ [(middle, o)])).
      { apply Forall_app. split; [apply (i_in _ _ _ _ IV)|]. constructor; [split; assumption|constructor]. }
      assert (INS : forall p o', In (p, o') (log ++ [(middle, o)]) -> In (p, o') log \/ (p = middle /\ o' = o)).
      { intros p o' I. apply in_app_or in I as [I | [I | []]]; [left; exact I|right; injection I; auto]. }
      destruct o.
      + (* Less *)
        destruct N as (N1 & N2 & N3 & N4). apply (IHa n high _ (log ++ [(middle, Less)])); try assumption.
        * destruct IV. constructor; rewrite ?last_with_snoc; try assumption; try lia.
          -- intros p I. destruct (INS _ _ I) as [I' | [_ I']]; [apply (i_neq0 p I')|discriminate].
          -- split; [lia|]. intros q Q LT. apply (N4 q); [lia|exact Q].
          -- intros p I. destruct (INS _ _ I) as [I' | [-> _]]; [specialize (i_ls0 p I'); lia|lia].
          -- intros p I. destruct (INS _ _ I) as [I' | [_ I']]; [apply i_gs0; exact I'|discriminate].
          -- intros p PP RNG. apply in_or_app. left. apply i_cover0; assumption.
          -- rewrite i_gr0. destruct (last_with Greater log), (last_with Less log); reflexivity.
        * intros p I. destruct (INS _ _ I) as [I' | [_ I']]; [|discriminate]. destruct (UN p I') as [ | [ | ]]; lia.
        * lia.
      + (* Equivalent *)
        subst n. eexists (Equivalent, middle), _, st'. split; [reflexivity|]. split; [exact RS'|]. split; [exact FOP'|]. split; [exact IN'|]. left. eauto.
      + (* Greater *)
        subst n.
        assert (G : forall h, h = mbu \/ (h = middle /\ mbu = middle) -> exists res log' st'', BinarySearch_again Middle DefaultEmpty test fuel low h (Greater, middle) st' = Some (res, st'') /\ R log' st'' /\ outcome res log').
        { intros h H. apply (IHa low h _ (log ++ [(middle, Greater)])); try assumption.
          - destruct IV. assert (HR : low <= h <= middle) by lia. constructor; rewrite ?last_with_snoc; try assumption; try lia.
            + intros p I. destruct (INS _ _ I) as [I' | [_ I']]; [apply (i_neq0 p I')|discriminate].
            + destruct H as [-> | [-> ->]]; [exact BM|apply PB; exact PM].
            + intros p I. destruct (INS _ _ I) as [I' | [_ I']]; [apply i_ls0; exact I'|discriminate].
            + intros p I. destruct (INS _ _ I) as [I' | [-> _]]; [specialize (i_gs0 p I'); lia|lia].
            + intros p PP RNG. apply in_or_app. left. apply CO; [exact PP|lia].
            + reflexivity.
          - intros p I. destruct (INS _ _ I) as [I' | [_ I']]; [|discriminate]. destruct (UN p I') as [ | [ | ]]; lia.
          - lia. }
        destruct uf; [apply G; left; reflexivity|]. apply G. right. split; [reflexivity|apply UF; reflexivity].
      + (* Unordered *)
        destruct N as (N1 & N2 & N3 & N4). unfold DefaultEmpty at 1. destruct (Z.leb_spec high n) as [LE|LT].
        * apply (IHa low mbu gr (log ++ [(middle, Unordered)])); try assumption.
          -- destruct IV. constructor; rewrite ?last_with_snoc; try assumption; try lia.
             ++ intros p I. destruct (INS _ _ I) as [I' | [_ I']]; [apply (i_neq0 p I')|discriminate].
             ++ intros p I. destruct (INS _ _ I) as [I' | [_ I']]; [apply i_ls0; exact I'|discriminate].
             ++ intros p I. destruct (INS _ _ I) as [I' | [_ I']]; [specialize (i_gs0 p I'); lia|discriminate].
             ++ destruct (last_with Greater log); [lia|exact Logic.I].
             ++ intros p PP RNG. apply in_or_app. destruct (Z_lt_ge_dec p middle); [left; apply CO; [exact PP|lia]|].
                destruct (Z.eq_dec p middle) as [-> |]; [right; left; reflexivity|]. left.
                destruct (Z_lt_ge_dec p high) as [L|G]; [exfalso; apply (N4 p); [lia|exact PP]|]. apply i_cover0; [exact PP|lia].
          -- intros p I. destruct (INS _ _ I) as [I' | [-> _]]; [destruct (UN p I') as [ | [ | ]]; lia|lia].
          -- lia.
        * assert (PN : P n) by (apply N3; destruct IV; lia).
          apply (IHs low high gr (log ++ [(middle, Unordered)])); try assumption; try lia; [apply RR'; exact RS'| | |].
          -- destruct IV. constructor; rewrite ?last_with_snoc; try assumption; try lia.
             ++ intros p I. destruct (INS _ _ I) as [I' | [_ I']]; [apply (i_neq0 p I')|discriminate].
             ++ intros p I. destruct (INS _ _ I) as [I' | [_ I']]; [apply i_ls0; exact I'|discriminate].
             ++ intros p I. destruct (INS _ _ I) as [I' | [_ I']]; [specialize (i_gs0 p I'); lia|discriminate].
             ++ intros p PP RNG. apply in_or_app. left. apply i_cover0; assumption.
          -- intros p I. destruct (INS _ _ I) as [I' | [-> _]]; [destruct (UN p I') as [ | [ | ]]; lia|lia].
          -- intros p PP RNG. apply in_or_app. destruct (Z_lt_ge_dec p middle); [left; apply CO; [exact PP|lia]|].
             destruct (Z.eq_dec p middle) as [-> |]; [right; left; reflexivity|]. exfalso; apply (N4 p); [lia|exact PP].
  Qed.

  Lemma search_result st : R [] st -> Bd lo0 -> Bd hi0 -> forall fuel, 2 * Z.max 0 (hi0 - lo0) + 1 <= Z.of_nat fuel ->
    exists res log st', BinarySearch Middle DefaultEmpty test fuel lo0 hi0 st = Some (res, st') /\ R log st' /\ outcome res log.
  Proof.
    intros RS B0 B1 fuel FU. unfold BinarySearch. apply (proj1 (searches fuel) lo0 hi0 _ []); try assumption; [|intros p []].
    constructor; cbn; try assumption; try lia; try constructor; auto; try (intros p []); intros; lia.
  Qed.
End Search.

Lemma last_found_snoc log p o : last_found (log ++ [(p, o)]) = if ge0 o then Some (o, p) else last_found log.
Proof. unfold last_found. rewrite rev_app_distr. cbn. destruct (ge0 o); reflexivity. Qed.
Lemma last_found_greater log : (forall p, ~ In (p, Equivalent) log) ->
  last_found log = match last_with Greater log with Some g => Some (Greater, g) | None => None end.
Proof.
  induction log as [|[p o] log IH] using rev_ind; intros N; [reflexivity|]. rewrite last_found_snoc, last_with_snoc.
  assert (IH' := IH (fun q I => N q (in_or_app _ _ _ (or_introl I)))). destruct o; cbn [ge0]; try exact IH'; [|reflexivity].
  destruct (N p). apply in_or_app. right. left. reflexivity.
Qed.

Lemma outcome_last (P : Z -> Prop) lo hi res log : outcome P lo hi res log ->
  match last_found log with Some r => res = r | None => snd res = hi /\ ge0 (fst res) = false end.
Proof.
  intros (_ & _ & [(a & f & -> & ->)|(N & -> & _)]); [rewrite last_found_snoc; reflexivity|]. rewrite last_found_greater by exact N.
  destruct (last_with Greater log); [reflexivity|]. destruct (last_with Less log); split; reflexivity.
Qed.
Lemma outcome_history (P : Z -> Prop) lo hi res log : outcome P lo hi res log -> history_ok lo hi log.
Proof. intros (A & B & _). split; [exact A|]. eapply Forall_impl; [|exact B]. cbv beta. tauto. Qed.

Definition on_all (P : Z -> Prop) (t : Z -> ordering) (low high : Z) : Prop :=
  forall p q, P p -> P q -> low <= p < high -> low <= q < high ->
    (t p = Less -> t q = Equivalent -> p < q) /\ (t p = Equivalent -> t q = Greater -> p < q) /\ (t p = Less -> t q = Greater -> p < q).
Lemma outcome_found (P : Z -> Prop) (t : Z -> ordering) lo hi res log : outcome P lo hi res log -> Forall (fun e => snd e = t (fst e)) log ->
  on_all P t lo hi ->
  let found := snd res in
  match fst res with
  | Equivalent => lo <= found < hi /\ P found /\ t found = Equivalent
  | Greater => lo <= found < hi /\ P found /\ t found = Greater /\ last_with Greater log = Some found /\
      forall p, P p -> lo <= p < hi -> t p <> Equivalent \/ (exists l, last_with Less log = Some l /\ p <= l)
  | Less => found = hi
  | Unordered => found = hi /\ forall p, P p -> lo <= p < hi -> t p = Unordered
  end.
Proof.
  intros (_ & IN & O) FT M. rewrite Forall_forall in IN, FT. cbv zeta.
  destruct O as [(a & f & -> & ->)|(NE & -> & CV)].
  - cbn [fst snd]. assert (I : In (f, Equivalent) (a ++ [(f, Equivalent)])) by (apply in_or_app; right; left; reflexivity).
    destruct (IN _ I) as [A B]. specialize (FT _ I). cbn in *. auto.
  - destruct (last_with Greater log) as [g|] eqn:G.
    + cbn [fst snd]. pose proof (last_with_in _ _ _ G) as I. destruct (IN _ I) as [A B]. pose proof (FT _ I) as T. cbn in *. repeat split; auto; try lia.
      intros p PP PR. destruct (CV p PP PR) as [L | [(g' & [= <-] & GP) | U]]; [right; exact L|left|left].
      * intros E. destruct (M p g PP B PR A) as (_ & H & _). specialize (H E (eq_sym T)). lia.
      * specialize (FT _ U). cbn in FT. congruence.
    + destruct (last_with Less log) as [l|] eqn:L; cbn [fst snd]; [reflexivity|]. split; [reflexivity|]. intros p PP PR.
      destruct (CV p PP PR) as [(l & E & _) | [(g' & E & _) | U]]; [discriminate|discriminate|]. specialize (FT _ U). cbn in FT. congruence.
Qed.

(** ** Default traits *)
Section Default.
  Context {St : Type}.
  Variable test : Z -> St -> ordering * St.
  Definition logged (p : Z) (st : St * list (Z * ordering)) : option (ordering * (St * list (Z * ordering))) :=
    let '(o, s) := test p (fst st) in Some (o, (s, snd st ++ [(p, o)])).

  Lemma default_search low high st fuel : 2 * Z.max 0 (high - low) + 1 <= Z.of_nat fuel ->
    exists res st' log, DefaultBinarySearch logged fuel low high (st, []) = Some (res, (st', log)) /\ outcome (fun _ => True) low high res log /\
      (forall t, (forall p s, fst (test p s) = t p) -> Forall (fun e => snd e = t (fst e)) log).
  Proof.
    intros FU. pose (R := fun (log : list (Z * ordering)) (s : St * list (Z * ordering)) =>
      snd s = log /\ forall t, (forall p s, fst (test p s) = t p) -> Forall (fun e => snd e = t (fst e)) log).
    destruct (search_result DefaultMiddle (GetSearchGuide DefaultNext logged) (fun _ => True) (fun _ => True) low high R R) with (st := (st, @nil (Z * ordering))) (fuel := fuel)
      as (res & log & [st' log'] & E & [RL RF] & O); auto.
    - intros log s l h RS _ _ _ _. unfold DefaultMiddle. destruct (Z.leb_spec h l).
      + eexists None, s. split; [reflexivity|]. split; [exact RS|]. intros; lia.
      + eexists (Some _), s. split; [reflexivity|]. split; [exact RS|]. split; [|exact Logic.I]. assert (0 <= (h - l) / 2 < h - l) by (split; [apply Z.div_pos; lia|apply Z.div_lt; lia]). lia.
    - intros log [s log'] p [RS RT] _ _ PR. cbn in RS. subst log'. unfold GetSearchGuide, logged. cbn [fst snd]. destruct (test p s) as [o s'] eqn:T.
      eexists o, _, _. split; [reflexivity|]. split.
      + split; [reflexivity|]. intros t HT. apply Forall_app. split; [apply RT; exact HT|]. constructor; [|constructor]. cbn. rewrite <- (HT p s), T. reflexivity.
      + destruct o; cbn [ge0]; unfold DefaultNext; try reflexivity; repeat split; auto; intros; lia.
    - split; [reflexivity|]. intros; constructor.
    - cbn in RL. subst log'. exists res, st', log. split; [exact E|]. split; assumption.
  Qed.

  (** The number of tests, if none of them is unordered. *)
  Lemma search_cost low high : (forall p s, low <= p < high -> fst (test p s) <> Unordered) ->
    forall fuel l h gr s log res s' log', low <= l -> h <= high ->
    BinarySearch_again DefaultMiddle DefaultEmpty (GetSearchGuide DefaultNext logged) fuel l h gr (s, log) = Some (res, (s', log')) ->
    exists n, length log' = (length log + n)%nat /\ (n = 0%nat \/ 2 ^ Z.of_nat n <= 2 * (h - l)).
  Proof.
    intros NU fuel0. induction fuel0 as [fuel0 IH] using (well_founded_induction lt_wf). destruct fuel0 as [|[|fuel]]; intros l h gr s log res s' log' L H E; [discriminate E| |].
    - cbn in E. unfold DefaultMiddle in E. destruct (h <=? l); [|discriminate E]. injection E as <- <- <-. exists 0%nat. split; [lia|left; reflexivity].
    - cbn [BinarySearch_again BinarySearch_scan] in E. unfold DefaultMiddle in E at 1. destruct (Z.leb_spec h l) as [LE|LT].
      + injection E as <- <- <-. exists 0%nat. split; [lia|left; reflexivity].
      + unfold GetSearchGuide in E at 1. unfold logged in E at 1. cbn [fst snd] in E.
        assert (W : 0 <= (h - l) / 2 < h - l) by (split; [apply Z.div_pos; lia|apply Z.div_lt; lia]).
        assert (D : 2 * ((h - l) / 2) <= h - l <= 2 * ((h - l) / 2) + 1) by (pose proof (Z.div_mod (h - l) 2 ltac:(lia)); pose proof (Z.mod_pos_bound (h - l) 2 ltac:(lia)); lia).
        specialize (NU (l + (h - l) / 2) s ltac:(lia)). destruct (test (l + (h - l) / 2) s) as [o s1] eqn:T. cbn [fst] in NU.
        assert (G : forall l1 h1 gr1, low <= l1 -> h1 <= high -> h1 - l1 <= (h - l) / 2 -> BinarySearch_again DefaultMiddle DefaultEmpty (GetSearchGuide DefaultNext logged) fuel l1 h1 gr1 (s1, log ++ [(l + (h - l) / 2, o)]) = Some (res, (s', log')) ->
          exists n, length log' = (length log + n)%nat /\ (n = 0%nat \/ 2 ^ Z.of_nat n <= 2 * (h - l))).
        { intros l1 h1 gr1 L1 H1 WW E1. destruct (IH fuel ltac:(lia) l1 h1 gr1 s1 _ res s' log' L1 H1 E1) as (n & -> & N). rewrite app_length. cbn [length]. exists (1 + n)%nat. split; [lia|]. right.
          rewrite Nat2Z.inj_add, Z.pow_add_r by lia. change (2 ^ Z.of_nat 1) with 2. destruct N as [-> |N]; [change (2 ^ Z.of_nat 0) with 1; lia|lia]. }
        destruct o; cbn [ge0] in E.
        * eapply G; [| | |exact E]; unfold DefaultNext; lia.
        * injection E as <- <- <-. exists 1%nat. rewrite app_length. cbn [length]. split; [lia|]. right. change (2 ^ Z.of_nat 1) with 2. lia.
        * eapply G; [| | |exact E]; lia.
        * contradiction.
  Qed.
End Default.

Lemma default_found (t : Z -> ordering) low high res log : outcome (fun _ => True) low high res log -> Forall (fun e => snd e = t (fst e)) log ->
  monotone t low high -> found_ok t low high res.
Proof.
  intros O FT M. assert (M' : on_all (fun _ => True) t low high) by (intros p q _ _; apply M).
  pose proof (outcome_found _ t low high res log O FT M') as F. destruct O as (_ & IN & O). rewrite Forall_forall in IN, FT.
  assert (LESS : forall l, last_with Less log = Some l -> low <= l < high /\ t l = Less).
  { intros l L. apply last_with_in in L. destruct (IN _ L) as [A _]. specialize (FT _ L). cbn in *. auto. }
  destruct O as [(a & f & E1 & ->)|(NE & E & CV)]; [cbn in F |- *; unfold found_ok; cbn; tauto|].
  unfold found_ok. destruct res as [o found]. cbn [fst snd] in *. destruct o.
  - subst found. destruct (last_with Greater log) as [g|] eqn:G; [discriminate|]. destruct (last_with Less log) as [l|] eqn:L; [|discriminate]. clear E.
    destruct (LESS l eq_refl) as [LR LT]. split; [reflexivity|]. split; [exists l; auto|]. intros p PR.
    destruct (CV p Logic.I PR) as [(l' & [= <-] & PL) | [(g' & E & _) | U]]; [|discriminate|specialize (FT _ U); cbn in FT; split; congruence].
    destruct (M l p LR PR) as (A & _ & B). split; intros TP; [specialize (A LT TP)|specialize (B LT TP)]; lia.
  - destruct (last_with Greater log), (last_with Less log); discriminate.
  - destruct F as (FR & _ & FG & G & F). split; [exact FR|]. split; [exact FG|]. intros p PR. split.
    + intros TP. destruct (F p Logic.I PR) as [N | (l & L & PL)]; [exact (N TP)|]. destruct (LESS l L) as [LR LT]. destruct (M l p LR PR) as (A & _). specialize (A LT TP). lia.
    + intros PF TP. destruct (CV p Logic.I PR) as [(l & L & PL) | [(g & E' & GP) | U]].
      * destruct (LESS l L) as [LR LT]. destruct (M l p LR PR) as (_ & _ & A). specialize (A LT TP). lia.
      * rewrite G in E'. injection E' as <-. lia.
      * specialize (FT _ U). cbn in FT. congruence.
  - destruct F as [-> F]. split; [reflexivity|]. intros p PR. apply F; auto.
Qed.

(** ** Cancellation *)
Section CancelGeneric.
  Context {St : Type}.
  Variable Middle : Z -> Z -> St -> option (option Z * St).
  Variable test : Z -> St -> option (option (ordering * Z) * St).
  Variable P Bd : Z -> Prop.
  Variable lo0 hi0 : Z.
  Variable R R' : list (Z * ordering) -> St -> Prop.
  Hypothesis RR' : forall log st, R log st -> R' log st.
  Hypothesis MID : forall log st low high, R log st -> lo0 <= low -> high <= hi0 -> Bd low -> Bd high ->
    exists m st', Middle low high st = Some (m, st') /\
      match m with None => R log st' /\ forall p, P p -> ~ low <= p < high | Some m => R' log st' /\ low <= m < high /\ P m end.
  Hypothesis TEST : forall log st p, R' log st -> (forall q, ~ In (q, Equivalent) log) -> P p -> lo0 <= p < hi0 ->
    exists o n st', test p st = Some (Some (o, n), st') /\ R (log ++ [(p, o)]) st' /\
      match o with
      | Less | Unordered => p < n /\ Bd n /\ (n < hi0 -> P n) /\ (forall q, p < q < n -> ~ P q)
      | Equivalent | Greater => n = p
      end.
  Hypothesis PB : forall p, P p -> Bd p.
  Lemma search_result_cancel st : R [] st -> Bd lo0 -> Bd hi0 -> forall fuel, 2 * Z.max 0 (hi0 - lo0) + 1 <= Z.of_nat fuel ->
    exists res log st', BinarySearch_cancel Middle DefaultEmpty test fuel lo0 hi0 st = Some (Some res, st') /\ R log st' /\ outcome P lo0 hi0 res log.
  Proof.
    intros RS B0 B1 fuel FU. unfold BinarySearch_cancel.
    match goal with |- context [BinarySearch ?M DefaultEmpty ?T fuel lo0 hi0 ?s] =>
      destruct (search_result M T P Bd lo0 hi0 (fun log ss => R log (fst ss) /\ snd ss = false) (fun log ss => R' log (fst ss) /\ snd ss = false)) with (st := s) (fuel := fuel)
        as (res & log & [s' c] & E & [RL RC] & O); auto end.
    - intros log [s c] [H ->]. auto.
    - intros log [s c] low high [H HC] A1 A2 A3 A4. cbn [fst snd] in *. subst c. destruct (MID log s low high H A1 A2 A3 A4) as (m & s' & -> & M).
      eexists m, _. split; [reflexivity|]. cbn [fst snd]. destruct m; tauto.
    - intros log [s c] p [H HC] NE PP PR. cbn [fst snd] in *. subst c. destruct (TEST log s p H NE PP PR) as (o & n & s' & T & A & B).
      unfold CancelTest. cbn [fst snd]. rewrite T. eexists o, n, _. split; [reflexivity|]. cbn [fst snd]. auto.
    - cbn [fst snd] in *. subst c. rewrite E. exists res, log, s'. auto.
  Qed.
End CancelGeneric.

Section Cancel.
  Context {St : Type}.
  Variable test : Z -> St -> option ordering * St.
  Definition logged_cancel (p : Z) (st : St * list (Z * option ordering)) : option (option (ordering * Z) * (St * list (Z * option ordering))) :=
    let '(o, s) := test p (fst st) in
    Some (match o with Some o => Some (o, if ge0 o then p else p + 1) | None => None end, (s, snd st ++ [(p, o)])).
  (** A test which cancels counts as equivalent. *)
  Definition answered (e : Z * option ordering) : Z * ordering := (fst e, match snd e with Some o => o | None => Equivalent end).

  Lemma cancel_search low high st fuel : 2 * Z.max 0 (high - low) + 1 <= Z.of_nat fuel ->
    exists res st' log, BinarySearch_cancel DefaultMiddle DefaultEmpty logged_cancel fuel low high (st, []) = Some (res, (st', log)) /\
      history_ok low high (map answered log) /\
      match res with
      | None => exists a p, log = a ++ [(p, None)]
      | Some r => Forall (fun e => snd e <> None) log /\ outcome (fun _ => True) low high r (map answered log)
      end.
  Proof.
    intros FU. unfold BinarySearch_cancel.
    pose (R := fun (log : list (Z * ordering)) (s : (St * list (Z * option ordering)) * bool) =>
      log = map answered (snd (fst s)) /\ if snd s then exists a p, snd (fst s) = a ++ [(p, None)] else Forall (fun e => snd e <> None) (snd (fst s))).
    match goal with |- context [BinarySearch ?M DefaultEmpty ?T fuel low high ?s] =>
      destruct (search_result M T (fun _ => True) (fun _ => True) low high (fun log ss => R log ss /\ (snd ss = true -> exists f, In (f, Equivalent) log)) (fun log ss => R log ss /\ (snd ss = true -> exists f, In (f, Equivalent) log))) with (st := s) (fuel := fuel)
      as (res & log & [[st' log'] c] & E & [[RL RF] RE] & O); auto end.
    - intros log s l h RS _ _ _ _. unfold DefaultMiddle. destruct (Z.leb_spec h l).
      + eexists None, s. split; [destruct s as [? ?]; reflexivity|]. split; [exact RS|]. intros; lia.
      + eexists (Some _), s. split; [destruct s as [? ?]; reflexivity|]. split; [exact RS|]. split; [|exact Logic.I].
        assert (0 <= (h - l) / 2 < h - l) by (split; [apply Z.div_pos; lia|apply Z.div_lt; lia]). lia.
    - intros log [[s log'] c] p [[RS RT] RE] NE _ PR. cbn [fst snd] in *. destruct c; [destruct (RE eq_refl) as (f & I); destruct (NE f I)|].
      unfold CancelTest, logged_cancel. cbn [fst snd]. destruct (test p s) as [[o|] s'].
      + eexists o, _, _. split; [reflexivity|]. split.
        * split; [|discriminate]. split; cbn [fst snd]; [rewrite map_app, RS; reflexivity|]. apply Forall_app. split; [exact RT|]. constructor; [discriminate|constructor].
        * destruct o; cbn [ge0]; try reflexivity; repeat split; auto; intros; lia.
      + eexists Equivalent, p, _. split; [reflexivity|]. split; [|reflexivity]. split.
        * split; cbn [fst snd]; [rewrite map_app, RS; reflexivity|eauto].
        * intros _. exists p. apply in_or_app. right. left. reflexivity.
    - split; [|discriminate]. split; [reflexivity|constructor].
    - cbn [fst snd] in *. subst log. rewrite E. eexists _, st', log'. split; [reflexivity|]. split; [apply (outcome_history _ _ _ _ _ O)|].
      destruct c; [exact RF|]. split; assumption.
  Qed.
End Cancel.
