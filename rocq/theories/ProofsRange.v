From Verif Require Import Base BaseLemmas ModelRange SpecRange.

Definition nend (b : N * N) : N := (fst b + snd b)%N.

Definition sep (a b : bucket) : Prop := strictly_before (fst a) (fst b).
Definition good (M : N) (b : bucket) : Prop :=
  (nend (fst b) <= M)%N /\ Forall (inside (fst b)) (snd b).

Lemma end_of_nend b M : (nend b <= M)%N -> (M < two64)%N -> end_of b = nend b.
Proof. unfold end_of, nend. intros. apply add64_small. lia. Qed.

Lemma span_while_app {A} (p : A -> bool) l a b :
  span_while p l = (a, b) -> l = a ++ b /\ Forall (fun x => p x = true) a /\
  match b with nil => True | x :: _ => p x = false end.
Proof.
  revert a b; induction l; simpl; intros a' b' H.
  - inversion H; subst; auto.
  - destruct (p a) eqn:E.
    + destruct (span_while p l) as [x y] eqn:E2. inversion H; subst.
      destruct (IHl _ _ eq_refl) as (-> & H1 & H2). repeat split; auto.
    + inversion H; subst. simpl. auto.
Qed.

Definition cov (bs : list bucket) (p : N) : Prop := exists b, In b bs /\ covers (fst b) p.

Lemma merge_after_spec M ss se : (M < two64)%N -> (ss <= se)%N -> (se <= M)%N ->
  forall after m subs m' subs' after',
  StronglySorted sep after -> Forall (good M) after ->
  Forall (fun b => ss <= nend (fst b))%N after ->
  (fst m <= ss)%N -> (se <= nend m)%N -> (nend m <= M)%N ->
  (nend m = se \/ Forall (fun b => nend m < fst (fst b))%N after) ->
  Forall (inside m) subs ->
  merge_after se m subs after = (m', subs', after') ->
  exists gone, after = gone ++ after' /\
    Forall (fun b => nend m' < fst (fst b))%N after' /\
    (nend m' <= M)%N /\ (se <= nend m')%N /\ (fst m' <= ss)%N /\
    Forall (inside m') subs' /\
    Permutation subs' (subs ++ flat_map snd gone) /\
    (forall p, covers m' p <-> covers m p \/ cov gone p) /\
    (forall x, (x < fst m)%N -> Forall (fun b => x < fst (fst b))%N gone -> (x < fst m')%N).
Proof.
  intros HM Hss Hse. induction after as [|[nx nsubs] rest IH]; intros m subs m' subs' after' Hs Hg Hlo Hf He HeM Hor Hin Heq.
  - simpl in Heq. inversion Heq; subst. exists nil. simpl. rewrite app_nil_r.
    split; [reflexivity|]. split; [constructor|split; [auto|split; [auto|split; [auto|split; [auto|split; [auto|split]]]]]].
    + intros p; split; auto. intros [Hq|[b [[] _]]]; auto.
    + auto.
  - simpl in Heq. inversion Hs as [|? ? Hs' Hall]; subst. inversion Hg as [|? ? Hg1 Hg']; subst.
    inversion Hlo as [|? ? Hlo1 Hlo']; subst. simpl in *.
    destruct Hg1 as [Hn1 Hn2]. simpl in *.
    unfold begin_of in Heq. rewrite (end_of_nend nx M) in Heq by auto.
    destruct (se <? fst nx)%N eqn:E.
    + inversion Heq; subst. exists nil. simpl. rewrite app_nil_r.
      assert (Hlt : (nend m' < fst nx)%N).
      { destruct Hor as [->|Hor]; [lia|]. inversion Hor; subst. auto. }
      split; [reflexivity|]. split; [|split; [auto|split; [auto|split; [auto|split; [auto|split; [auto|split]]]]]].
      * constructor; auto. eapply Forall_impl; [|apply Hall]. intros b Hb.
        unfold sep, strictly_before in Hb. simpl in Hb. unfold nend in *. simpl in *. lia.
      * intros p; split; auto. intros [Hq|[b [[] _]]]; auto.
      * auto.
    + assert (Heq2 : nend m = se).
      { destruct Hor as [|Hor]; auto. inversion Hor; subst. simpl in *. lia. }
      set (f := N.min (fst m) (fst nx)) in *.
      assert (Hsub : sub64 (N.max (nend nx) se) f = (N.max (nend nx) se - f)%N).
      { apply sub64_small; unfold f, nend in *; lia. }
      rewrite Hsub in Heq.
      apply IH in Heq; auto.
      * destruct Heq as (gone & -> & A & B & C & D & F & G & H & I).
        exists ((nx, nsubs) :: gone). split; [reflexivity|]. split; [exact A|].
        split; [exact B|]. split; [exact C|]. split; [exact D|]. split; [exact F|].
        split; [|split].
        -- rewrite G. simpl. now rewrite <- app_assoc.
        -- intros p. rewrite H. unfold cov, covers. simpl. unfold nend, f in *. split.
           ++ intros [Hp|(b & Hb & Hp)].
              ** destruct (N.lt_ge_cases p (fst m)); [right; exists (nx, nsubs); simpl; split; [auto|lia]|].
                 destruct (N.lt_ge_cases p (fst m + snd m)); [left; lia|].
                 right; exists (nx, nsubs); simpl; split; [auto|lia].
              ** right. exists b. split; auto.
           ++ intros [Hp|(b & [<-|Hb] & Hp)].
              ** left. lia.
              ** left. simpl in Hp. lia.
              ** right. eauto.
        -- intros x Hx Hall2. inversion Hall2; subst. simpl in *. apply I; auto. simpl. unfold f. lia.
      * simpl. unfold f. lia.
      * unfold nend, f in *; simpl. lia.
      * unfold nend, f in *; simpl. lia.
      * unfold nend, f in *; simpl in *.
        destruct (N.le_gt_cases (fst nx + snd nx) se).
        -- left. lia.
        -- right. eapply Forall_impl; [|apply Hall]. intros b Hb.
           unfold sep, strictly_before in Hb. simpl in Hb. lia.
      * apply Forall_app. split.
        -- eapply Forall_impl; [|apply Hin]. unfold inside, nend, f in *; simpl in *. intros; lia.
        -- eapply Forall_impl; [|apply Hn2]. unfold inside, nend, f in *; simpl in *. intros; lia.
Qed.

Lemma StronglySorted_app_inv {A} (R : A -> A -> Prop) l1 l2 :
  StronglySorted R (l1 ++ l2) ->
  StronglySorted R l1 /\ StronglySorted R l2 /\ (forall a b, In a l1 -> In b l2 -> R a b).
Proof.
  induction l1; simpl; intros H.
  - repeat split; auto; [constructor|]. intros ? ? [].
  - inversion H; subst. destruct (IHl1 H2) as (A1 & A2 & A3). repeat split; auto.
    + constructor; auto. apply Forall_app in H3. tauto.
    + intros x y [<-|Hx] Hy; auto. apply Forall_app in H3. destruct H3 as [_ H3].
      rewrite Forall_forall in H3. auto.
Qed.

Lemma StronglySorted_app {A} (R : A -> A -> Prop) l1 l2 :
  StronglySorted R l1 -> StronglySorted R l2 -> (forall a b, In a l1 -> In b l2 -> R a b) ->
  StronglySorted R (l1 ++ l2).
Proof.
  induction 1; simpl; intros; auto. constructor; auto.
  apply Forall_app. split; auto. apply Forall_forall. auto.
Qed.

Lemma bucket_insert_spec M bs r : (M < two64)%N ->
  StronglySorted sep bs -> Forall (good M) bs -> (nend r <= M)%N ->
  exists bs', bucket_insert bs r = Ok bs' /\
    StronglySorted sep bs' /\ Forall (good M) bs' /\
    Permutation (flat_map snd bs') (r :: flat_map snd bs) /\
    (forall p, cov bs' p <-> covers r p \/ cov bs p).
Proof.
  intros HM Hs Hg Hr. unfold bucket_insert, lower_bound.
  destruct (span_while _ bs) as [before after] eqn:Esp.
  apply span_while_app in Esp. destruct Esp as (-> & Hb & Ha).
  apply StronglySorted_app_inv in Hs. destruct Hs as (Hs1 & Hs2 & Hs3).
  apply Forall_app in Hg. destruct Hg as [Hg1 Hg2].
  assert (Hb' : Forall (fun b => nend (fst b) < fst r)%N before).
  { rewrite Forall_forall in *. intros b Hin. specialize (Hb _ Hin). simpl in Hb.
    destruct (Hg1 _ Hin) as [Hn _]. rewrite (end_of_nend _ M) in Hb by auto. lia. }
  assert (Ha' : Forall (fun b => fst r <= nend (fst b))%N after).
  { destruct after as [|a0 after0]; auto.
    inversion Hg2 as [|? ? Hga Hg2']; subst. destruct Hga as [Hn _].
    rewrite (end_of_nend _ M) in Ha by auto.
    constructor. { lia. }
    inversion Hs2; subst. eapply Forall_impl; [|apply H2]. intros b Hbb.
    unfold sep, strictly_before in Hbb. unfold nend in *. lia. }
  assert (Hex : existsb (fun b : bucket => (end_of (fst b) <? fst r)%N) after = false).
  { apply Bool.not_true_is_false. intro C. apply existsb_exists in C. destruct C as (b & Hin & C).
    rewrite Forall_forall in *. specialize (Ha' _ Hin). destruct (Hg2 _ Hin) as [Hn _].
    rewrite (end_of_nend _ M) in C by auto. lia. }
  rewrite Hex. simpl.
  rewrite (end_of_nend r M) by auto.
  assert (Hmb : merge_before (begin_of r) (nend r) r [r] (rev before) = (r, [r], rev before)).
  { destruct (rev before) as [|[pv ps] rb] eqn:Erev; auto. simpl.
    assert (In (pv, ps) before) by (apply in_rev; rewrite Erev; left; auto).
    rewrite Forall_forall in Hb', Hg1. specialize (Hb' _ H). destruct (Hg1 _ H) as [Hn _]. simpl in *.
    rewrite (end_of_nend pv M) by auto. unfold begin_of.
    destruct (nend pv <? fst r)%N eqn:E; auto. lia. }
  rewrite Hmb.
  destruct (merge_after (nend r) r [r] after) as [[m' subs'] after'] eqn:Ema.
  eapply (merge_after_spec M (fst r) (nend r)) in Ema; auto; try (unfold nend in *; lia).
  2:{ constructor; [|constructor]. unfold inside. lia. }
  destruct Ema as (gone & -> & A & B & C & D & F & G & H & I).
  rewrite rev_involutive.
  eexists. split; [reflexivity|].
  apply StronglySorted_app_inv in Hs2. destruct Hs2 as (Hs2a & Hs2b & Hs2c).
  apply Forall_app in Hg2. destruct Hg2 as [Hg2a Hg2b].
  split; [|split; [|split]].
  - apply StronglySorted_app; auto.
    + constructor; auto. 
    + intros a b Hina [<-|Hinb].
      * unfold sep, strictly_before. simpl. apply I.
        -- rewrite Forall_forall in Hb'. apply Hb'. auto.
        -- apply Forall_forall. intros g Hgin. specialize (Hs3 a g Hina). apply Hs3. apply in_or_app; auto.
      * apply Hs3; auto. apply in_or_app; auto.
  - apply Forall_app. split; auto. constructor; auto. split; auto.
  - rewrite !flat_map_app. simpl. rewrite G. simpl.
    rewrite <- Permutation_middle. reflexivity.
  - intros p. unfold cov. split.
    + intros (b & Hin & Hp). apply in_app_or in Hin. destruct Hin as [Hin|[<-|Hin]].
      * right. exists b. split; auto. apply in_or_app; auto.
      * simpl in Hp. apply H in Hp. destruct Hp as [Hp|(b & Hin & Hp)]; auto.
        right. exists b. split; auto. apply in_or_app; right. apply in_or_app; auto.
      * right. exists b. split; auto. apply in_or_app; right. apply in_or_app; auto.
    + intros [Hp|(b & Hin & Hp)].
      * exists (m', subs'). split. { apply in_or_app; right; left; auto. } simpl. apply H. auto.
      * apply in_app_or in Hin. destruct Hin as [Hin|Hin].
        { exists b. split; auto. apply in_or_app; auto. }
        apply in_app_or in Hin. destruct Hin as [Hin|Hin].
        { exists (m', subs'). split. { apply in_or_app; right; left; auto. } simpl. apply H. right. exists b; auto. }
        { exists b. split; auto. apply in_or_app; right; right; auto. }
Qed.

Lemma bucket_all_spec M rs : (M < two64)%N -> Forall (fun r => nend r <= M)%N rs ->
  forall bs, StronglySorted sep bs -> Forall (good M) bs ->
  exists bs', bucket_all bs rs = Ok bs' /\
    StronglySorted sep bs' /\ Forall (good M) bs' /\
    Permutation (flat_map snd bs') (rs ++ flat_map snd bs) /\
    (forall p, cov bs' p <-> (exists r, In r rs /\ covers r p) \/ cov bs p).
Proof.
  intros HM. induction 1 as [|r rs Hr Hrs IH]; intros bs Hs Hg; simpl.
  - exists bs. repeat split; auto. intros [(r & [] & _)|]; auto.
  - destruct (bucket_insert_spec M bs r HM Hs Hg Hr) as (b1 & -> & A1 & A2 & A3 & A4). simpl.
    destruct (IH b1 A1 A2) as (b2 & -> & B1 & B2 & B3 & B4).
    exists b2. repeat split; auto.
    + rewrite B3, A3. symmetry. apply Permutation_middle.
    + intros Hp. apply B4 in Hp. destruct Hp as [(x & Hx & Hp)|Hp]; [left; eauto|].
      apply A4 in Hp. destruct Hp as [Hp|Hp]; [left; eauto|auto].
    + intros [(x & [->|Hx] & Hp)|Hp]; apply B4; [right; apply A4; auto|left; eauto|right; apply A4; auto].
Qed.

Lemma fits_bound rs : Forall fits64 rs -> Forall (fun r => nend r <= two64 - 1)%N rs.
Proof. intros. eapply Forall_impl; [|apply H]. unfold fits64, nend, two64. intros. lia. Qed.

Theorem buckets_invariant rs : Forall fits64 rs ->
  exists bs, bucket_all [] rs = Ok bs /\
    StronglySorted (fun a b => strictly_before (fst a) (fst b)) bs /\
    (forall p, (exists b, In b bs /\ covers (fst b) p) <-> (exists r, In r rs /\ covers r p)) /\
    Permutation (flat_map snd bs) rs /\
    (forall b r, In b bs -> In r (snd b) -> inside (fst b) r).
Proof.
  intros H. destruct (bucket_all_spec (two64 - 1) rs) with (bs := @nil bucket) as (bs & E & S & G & P & C).
  - unfold two64; lia.
  - now apply fits_bound.
  - constructor.
  - constructor.
  - exists bs. split; auto. split; auto. split; [|split].
    + intros p. rewrite (C p). split; [|auto]. intros [?|(b & [] & _)]; auto.
    + now rewrite app_nil_r in P.
    + intros b r Hb Hr. rewrite Forall_forall in G. destruct (G _ Hb) as [_ G2].
      rewrite Forall_forall in G2. auto.
Qed.

(* ---- decoding ---- *)
Lemma block_eqb_eq a b : block_eqb a b = true -> a = b.
Proof. unfold block_eqb. destruct a, b; simpl. intros. f_equal; lia. Qed.
Lemma block_eqb_refl a : block_eqb a a = true.
Proof. unfold block_eqb. destruct a; simpl. lia. Qed.

Section Dec.
  Context {V : Type}.
  Variable field : list V.
  Variable decode1 : block -> outcome (list V).
  Hypothesis field_small : (lenN field < two64)%N.
  Hypothesis decode1_ok : forall r, in_field (lenN field) r -> decode1 r = Ok (points field r).

  Definition entry_ok (e : block * (block * list V)) : Prop :=
    inside (fst (snd e)) (fst e) /\ in_field (lenN field) (fst (snd e)) /\
    snd (snd e) = points field (fst (snd e)).

  Lemma fold_entries br d subs : forall m : @ranges_map V,
    (forall k e, In (k, e) (fold_left (fun m s => (s, (br, d)) :: m) subs m) <->
      (In k subs /\ e = (br, d)) \/ In (k, e) m).
  Proof.
    induction subs; simpl; intros m k e.
    - tauto.
    - rewrite IHsubs. simpl. split.
      + intros [[? ?]|[H|H]]; auto. inversion H; subst. auto.
      + intros [[[->|?] ->]|?]; auto.
  Qed.

  Lemma decode_buckets_spec bs : forall m,
    Forall (good (lenN field)) bs -> Forall entry_ok m ->
    exists m', decode_buckets decode1 bs m = Ok m' /\ Forall entry_ok m' /\
      (forall k, In k (flat_map snd bs) \/ (exists e, In (k, e) m) -> exists e, In (k, e) m').
  Proof.
    induction bs as [|[br subs] rest IH]; simpl; intros m Hg Hm.
    - exists m. repeat split; auto. intros k [[]|?]; auto.
    - inversion Hg as [|? ? [Hg1 Hg2] Hg']; subst. simpl in *.
      rewrite decode1_ok by (unfold in_field, nend in *; auto). simpl.
      destruct (IH (fold_left (fun m s => (s, (br, points field br)) :: m) subs m)) as (m' & -> & A & B); auto.
      { apply Forall_forall. intros [k e] Hin. apply fold_entries in Hin. destruct Hin as [[Hk ->]|Hin].
        - unfold entry_ok; simpl. rewrite Forall_forall in Hg2. repeat split; auto; apply (Hg2 _ Hk).
        - rewrite Forall_forall in Hm. auto. }
      exists m'. repeat split; auto. intros k [Hk|[e He]].
      + apply in_app_or in Hk. destruct Hk as [Hk|Hk].
        * apply B. right. eexists. apply fold_entries. left; eauto.
        * apply B. auto.
      + apply B. right. eexists. apply fold_entries. right; eauto.
  Qed.

  Lemma take_range_ok m r : Forall entry_ok m -> (exists e, In (r, e) m) ->
    take_range m r = Ok (points field r).
  Proof.
    intros Hm [e He]. unfold take_range, rm_find.
    destruct (find _ m) as [[k [br d]]|] eqn:E.
    - apply find_some in E. destruct E as [Hin Hk]. simpl in Hk. apply block_eqb_eq in Hk. subst k.
      rewrite Forall_forall in Hm. destruct (Hm _ Hin) as (A & B & C). simpl in *. subst d.
      destruct A as [A1 A2]. unfold in_field in B.
      assert (Hl : length (points field br) = N.to_nat (snd br)).
      { unfold points. apply slice_length. unfold lenN in B. lia. }
      assert (Hsub : sub64 (fst r) (fst br) = (fst r - fst br)%N).
      { apply sub64_small; auto. unfold lenN in *. lia. }
      rewrite Hsub. unfold lenN at 1. rewrite Hl.
      destruct (_ <=? _)%N eqn:E; [|lia].
      f_equal. unfold points at 1. rewrite slice_slice by lia.
      unfold points. f_equal. lia.
    - exfalso. eapply find_none in E; eauto. simpl in E. rewrite block_eqb_refl in E. discriminate.
  Qed.

  Theorem decode_ranges_ok rs : Forall (in_field (lenN field)) rs ->
    decode_ranges decode1 rs = Ok (map (points field) rs).
  Proof.
    intros H. unfold decode_ranges.
    destruct (bucket_all_spec (lenN field) rs field_small) with (bs := @nil bucket) as (bs & -> & S & G & P & C);
      auto; try constructor.
    simpl.
    destruct (decode_buckets_spec bs []) as (m & -> & A & B); auto. simpl.
    apply mapM_ok_ext. apply Forall_forall. intros r Hr. apply take_range_ok; auto.
    apply B. left. rewrite app_nil_r in P. eapply Permutation_in; [symmetry; apply P|auto].
  Qed.
End Dec.

(* ---- decoding with an arbitrary single-range decoder ---- *)
Section DecGen.
  Context {V : Type}.
  Variable decode1 : block -> outcome (list V).
  Variable M : N.
  Hypothesis M_small : (M < two64)%N.
  Hypothesis shaped : forall r d, (nend r <= M)%N -> decode1 r = Ok d -> length d = N.to_nat (snd r).
  Hypothesis safe : forall r, (nend r <= M)%N -> decode1 r <> UB.

  Definition entry_gen (e : block * (block * list V)) : Prop :=
    inside (fst (snd e)) (fst e) /\ (nend (fst (snd e)) <= M)%N /\
    decode1 (fst (snd e)) = Ok (snd (snd e)).

  Lemma decode_buckets_gen bs : forall m,
    Forall (good M) bs -> Forall entry_gen m ->
    match decode_buckets decode1 bs m with
    | Ok m' => Forall entry_gen m' /\
        (forall k, In k (flat_map snd bs) \/ (exists e, In (k, e) m) -> exists e, In (k, e) m')
    | Throw _ => exists br, In br bs /\ exists e, decode1 (fst br) = Throw e
    | UB => False
    end.
  Proof.
    induction bs as [|[br subs] rest IH]; simpl; intros m Hg Hm.
    - split; auto. intros k [[]|?]; auto.
    - inversion Hg as [|? ? [Hg1 Hg2] Hg']; subst. simpl in *.
      assert (Hf : (nend br <= M)%N) by auto.
      destruct (decode1 br) as [d|e|] eqn:Ed; simpl.
      + specialize (IH (fold_left (fun m s => (s, (br, d)) :: m) subs m) Hg').
        assert (Hm' : Forall entry_gen (fold_left (fun m s => (s, (br, d)) :: m) subs m)).
        { apply Forall_forall. intros [k e] Hin. apply fold_entries in Hin. destruct Hin as [[Hk ->]|Hin].
          - unfold entry_gen; simpl. rewrite Forall_forall in Hg2. auto.
          - rewrite Forall_forall in Hm. auto. }
        specialize (IH Hm'). destruct (decode_buckets _ _ _) as [m'|e|]; auto.
        * destruct IH as [A B]. split; auto. intros k [Hk|[e He]].
          -- apply in_app_or in Hk. destruct Hk as [Hk|Hk].
             ++ apply B. right. eexists. apply fold_entries. left; eauto.
             ++ apply B. auto.
          -- apply B. right. eexists. apply fold_entries. right; eauto.
        * destruct IH as (b & Hb & He). eauto.
      + exists (br, subs). simpl. eauto.
      + eapply safe; eauto.
  Qed.

  (* the vector of range r is cut out of the decoded vector of a block containing r *)
  Definition cut_from_block (r : block) (v : list V) : Prop :=
    exists b d, inside b r /\ (nend b <= M)%N /\ decode1 b = Ok d /\
      v = slice d (N.to_nat (fst r) - N.to_nat (fst b)) (N.to_nat (snd r)).

  Lemma take_range_gen m r : Forall entry_gen m -> (exists e, In (r, e) m) ->
    exists v, take_range m r = Ok v /\ cut_from_block r v.
  Proof.
    intros Hm [e He]. unfold take_range, rm_find.
    destruct (find _ m) as [[k [br d]]|] eqn:E.
    - apply find_some in E. destruct E as [Hin Hk]. simpl in Hk. apply block_eqb_eq in Hk. subst k.
      rewrite Forall_forall in Hm. destruct (Hm _ Hin) as (A & B & C). simpl in *.
      pose proof (shaped _ _ B C) as Hl.
      pose proof A as [A1 A2]. unfold nend in B.
      assert (Hsub : sub64 (fst r) (fst br) = (fst r - fst br)%N).
      { apply sub64_small; auto. lia. }
      rewrite Hsub. unfold lenN at 1. rewrite Hl.
      destruct (_ <=? _)%N eqn:E; [|lia].
      eexists. split; [reflexivity|]. exists br, d. split; [auto|]. split; [auto|]. split; [auto|].
      f_equal. lia.
    - exfalso. eapply find_none in E; eauto. simpl in E. rewrite block_eqb_refl in E. discriminate.
  Qed.

  Theorem decode_ranges_gen_M rs : Forall (fun r => nend r <= M)%N rs ->
    match decode_ranges decode1 rs with
    | Ok vs => Forall2 cut_from_block rs vs
    | Throw e => True
    | UB => False
    end.
  Proof.
    intros H. unfold decode_ranges.
    destruct (bucket_all_spec M rs M_small) with (bs := @nil bucket) as (bs & -> & S & G & P & C);
      auto; try constructor.
    simpl. pose proof (decode_buckets_gen bs [] G) as D.
    destruct (decode_buckets decode1 bs []) as [m|e|]; simpl; auto.
    destruct D as [A B]; auto.
    assert (Hall : forall r, In r rs -> exists v, take_range m r = Ok v /\ cut_from_block r v).
    { intros r Hr. apply take_range_gen; auto. apply B. left. rewrite app_nil_r in P.
      eapply Permutation_in; [symmetry; apply P|auto]. }
    clear -Hall. induction rs as [|r rs IH]; simpl; [constructor|].
    destruct (Hall r) as (v & -> & Hv); [left; auto|]. simpl.
    assert (IH' : match mapM (take_range m) rs with Ok vs => Forall2 cut_from_block rs vs | Throw _ => True | UB => False end).
    { apply IH. intros r' Hr'. apply Hall. right; auto. }
    destruct (mapM (take_range m) rs); simpl; auto.
  Qed.
End DecGen.

Theorem decode_ranges_gen {V} (decode1 : block -> outcome (list V)) :
  (forall r d, fits64 r -> decode1 r = Ok d -> length d = N.to_nat (snd r)) ->
  (forall r, fits64 r -> decode1 r <> UB) -> forall rs, Forall fits64 rs ->
  match decode_ranges decode1 rs with
  | Ok vs => Forall2 (fun r v => exists b d, inside b r /\ fits64 b /\ decode1 b = Ok d /\
               v = slice d (N.to_nat (fst r) - N.to_nat (fst b)) (N.to_nat (snd r))) rs vs
  | Throw e => True
  | UB => False
  end.
Proof.
  intros H1 H2 rs H.
  assert (F : forall r, (nend r <= two64 - 1)%N -> fits64 r) by (unfold fits64, nend, two64; intros; lia).
  pose proof (decode_ranges_gen_M decode1 (two64 - 1) ltac:(reflexivity) (fun r d Hr => H1 r d (F r Hr)) (fun r Hr => H2 r (F r Hr))
                rs (fits_bound rs H)) as G.
  destruct (decode_ranges decode1 rs); auto.
  eapply Forall2_impl; [|apply G]. intros r v (b & d & A & B & C). exists b, d. auto.
Qed.
