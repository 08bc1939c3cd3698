(* The union request asks for everything that the requests of a batch ask for, and for nothing else. *)
From Coq Require Import Permutation Sorted.
From Verif Require Import Base BaseLemmas ModelStrings ModelEngine SpecEngine ProofsStrings SpecUnion.

Definition good_pairs (m : list (string * list string)) : Prop :=
  NoDup (map fst m) /\
  Forall (fun p => plain (fst p) /\ fst p <> ""%string /\ snd p <> [] /\
                   Forall (fun v => plain v /\ v <> ""%string) (snd p)) m.

(* ---- the map of values ---- *)
Lemma has_value_app a b k v : has_value (a ++ b) k v <-> has_value a k v \/ has_value b k v.
Proof.
  unfold has_value. split.
  - intros (vs & I & J). apply in_app_or in I as [I|I]; [left|right]; exists vs; auto.
  - intros [(vs & I & J)|(vs & I & J)]; exists vs; split; auto; apply in_or_app; auto.
Qed.

Lemma has_value_update m k v : sfind k m <> None -> NoDup (map fst m) -> forall k' v',
  has_value (supdate k (fun l => l ++ [v]) m) k' v' <-> has_value m k' v' \/ (k' = k /\ v' = v).
Proof.
  intros Hf N k' v'. induction m as [|[k0 vs0] m IH]; [now elim Hf|]. cbn [sfind] in Hf. cbn [supdate].
  inversion N as [|? ? Nk Nm]; subst. destruct (String.eqb_spec k k0) as [->|D].
  - unfold has_value. split.
    + intros (vs & [[= <- <-]|I] & J).
      * apply in_app_or in J as [J|[<-|[]]]; [left; exists vs0; split; auto; now left|now right].
      * left. exists vs. split; auto. now right.
    + intros [(vs & [[= <- <-]|I] & J)|[-> ->]].
      * exists (vs0 ++ [v]). split; [now left|]. apply in_or_app. auto.
      * exists vs. split; auto. now right.
      * exists (vs0 ++ [v]). split; [now left|]. apply in_or_app. right. now left.
  - specialize (IH Hf Nm). split.
    + intros (vs & [[= <- <-]|I] & J); [left; exists vs0; split; auto; now left|].
      destruct (proj1 IH (ex_intro _ vs (conj I J))) as [(ws & I' & J')|E]; [|now right].
      left. exists ws. split; auto. now right.
    + intros [(vs & [[= <- <-]|I] & J)|E].
      * exists vs0. split; auto. now left.
      * destruct (proj2 IH (or_introl (ex_intro _ vs (conj I J)))) as (ws & I' & J'). exists ws. split; auto. now right.
      * destruct (proj2 IH (or_intror E)) as (ws & I' & J'). exists ws. split; auto. now right.
Qed.

Lemma supdate_fst {V} k (f : V -> V) m : map fst (supdate k f m) = map fst m.
Proof.
  induction m as [|[k0 v0] m IH]; [reflexivity|]. cbn [supdate]. destruct (String.eqb k k0); cbn [map fst]; congruence.
Qed.

Lemma sfind_none_in {V} k (m : list (string * V)) : sfind k m = None -> ~ In k (map fst m).
Proof.
  induction m as [|[k0 v0] m IH]; cbn; [tauto|]. destruct (String.eqb_spec k k0) as [->|D]; [discriminate|].
  intros H [->|I]; [contradiction|]. now apply IH.
Qed.
Lemma sfind_some_in {V} k (m : list (string * V)) v : sfind k m = Some v -> In (k, v) m.
Proof.
  induction m as [|[k0 v0] m IH]; cbn; [discriminate|]. destruct (String.eqb_spec k k0) as [->|D]; [intros [= ->]; now left|].
  intros H. right. now apply IH.
Qed.

Lemma insert_values k v m : good_pairs m -> plain k -> k <> ""%string -> plain v -> v <> ""%string ->
  good_pairs (sset_insert k v m) /\
  forall k' v', has_value (sset_insert k v m) k' v' <-> has_value m k' v' \/ (k' = k /\ v' = v).
Proof.
  intros [N G] Pk Nk Pv Nv. unfold sset_insert. destruct (sfind k m) as [vs|] eqn:E.
  - destruct (existsb (String.eqb v) vs) eqn:Ev.
    + split; [split; assumption|]. intros k' v'. split; [now left|]. intros [H|[-> ->]]; [exact H|].
      exists vs. split; [now apply sfind_some_in|]. apply existsb_exists in Ev as (w & I & Ew).
      apply String.eqb_eq in Ew. now subst w.
    + split.
      * split; [now rewrite supdate_fst|]. clear - G Pv Nv. induction G as [|[k0 vs0] m (A & B & C & D) G IH]; [constructor|].
        cbn [supdate]. destruct (String.eqb k k0); constructor; auto. cbn [fst snd] in *. split; [exact A|]. split; [exact B|]. split.
        -- destruct vs0; discriminate.
        -- apply Forall_app. auto.
      * apply has_value_update; [congruence|exact N].
  - split.
    + split.
      * rewrite map_app. cbn [map fst]. apply (Permutation_NoDup (Permutation_cons_append _ _)).
        constructor; [now apply sfind_none_in|exact N].
      * apply Forall_app. split; [exact G|]. constructor; [|constructor]. cbn [fst snd].
        split; [exact Pk|]. split; [exact Nk|]. split; [discriminate|]. constructor; [auto|constructor].
    + intros k' v'. rewrite has_value_app. split; (intros [H|H]; [now left|right]).
      * destruct H as (vs & [[= <- <-]|[]] & [<-|[]]). auto.
      * destruct H as [-> ->]. exists [v]. split; now left.
Qed.

Lemma token_plain s t k v : In t (split ","%char s) -> split "="%char t = [k; v] ->
  plain k /\ k <> ""%string /\ plain v /\ v <> ""%string.
Proof.
  intros It Es. destruct (split_free _ _ _ It) as [Ct _].
  assert (Ik : In k (split "="%char t)) by (rewrite Es; now left).
  assert (Iv : In v (split "="%char t)) by (rewrite Es; right; now left).
  destruct (split_free _ _ _ Ik) as [Ek Nk]. destruct (split_free _ _ _ Iv) as [Ev Nv].
  assert (X : forall c' s' cur w, In w (split_ c' s' cur) -> has_char ","%char cur = false -> has_char ","%char s' = false ->
                has_char ","%char w = false).
  { clear. intros c'. induction s' as [|a s' IH]; intros cur w; cbn [split_ has_char].
    - destruct (String.eqb cur ""); cbn [In]; [tauto|]. intros [<-|[]]; auto.
    - intros I Hc Hs. apply orb_false_elim in Hs as [Ha Hs]. destruct (Ascii.eqb a c').
      + destruct (String.eqb cur ""); [exact (IH _ _ I eq_refl Hs)|]. destruct I as [<-|I]; [exact Hc|].
        exact (IH _ _ I eq_refl Hs).
      + apply (IH _ _ I); [|exact Hs]. rewrite has_char_app, Hc. cbn. now rewrite Ha. }
  repeat split; auto; eapply X; eauto; reflexivity.
Qed.

(* the value as it stands in the request, with its slashes *)
Definition mentions (drop : bool) (s k v : string) : Prop :=
  exists t, In t (split ","%char s) /\ split "="%char t = [k; v] /\
    ~ (drop = true /\ (k = "year"%string \/ k = "month"%string)).

Lemma kept_iff drop t k v : kept drop t = Some (k, v) <->
  split "="%char t = [k; v] /\ ~ (drop = true /\ (k = "year"%string \/ k = "month"%string)).
Proof.
  unfold kept. destruct (split "="%char t) as [|a [|b [|c l]]]; try (split; [discriminate|intros [E _]; discriminate]).
  destruct drop; cbn [andb].
  - destruct (String.eqb_spec a "year") as [->|N1]; cbn [orb].
    { split; [discriminate|]. intros [[= <- <-] H]. elim H. auto. }
    destruct (String.eqb_spec a "month") as [->|N2]; cbn [orb].
    { split; [discriminate|]. intros [[= <- <-] H]. elim H. auto. }
    split; [|intros [[= <- <-] _]; reflexivity]. intros [= <- <-]. split; [reflexivity|]. tauto.
  - split; [intros [= <- <-]; split; [reflexivity|intros [E _]; discriminate]|intros [[= <- <-] _]; reflexivity].
Qed.

Lemma add_pairs_values drop s m : good_pairs m ->
  good_pairs (add_pairs drop s m) /\
  forall k v, has_value (add_pairs drop s m) k v <-> has_value m k v \/ mentions drop s k v.
Proof.
  intros G0. unfold add_pairs, mentions.
  assert (X : forall ts m, (forall t, In t ts -> In t (split ","%char s)) -> good_pairs m ->
    let m' := fold_left (fun m t => match kept drop t with Some (k, v) => sset_insert k v m | None => m end) ts m in
    good_pairs m' /\ forall k v, has_value m' k v <-> has_value m k v \/ exists t, In t ts /\ kept drop t = Some (k, v)).
  { clear m G0. induction ts as [|t ts IH]; intros m Hs G; cbn [fold_left].
    - split; [exact G|]. intros k v. split; [now left|]. intros [H|(t & [] & _)]. exact H.
    - destruct (kept drop t) as [[k0 v0]|] eqn:E.
      + destruct (proj1 (kept_iff _ _ _ _) E) as [Et _].
        destruct (token_plain s t k0 v0 (Hs t (or_introl eq_refl)) Et) as (A & B & C & D).
        destruct (insert_values k0 v0 m G A B C D) as [G1 V1].
        destruct (IH _ (fun t' I => Hs t' (or_intror I)) G1) as [G2 V2]. split; [exact G2|]. intros k v. rewrite V2, V1.
        split.
        * intros [[H|[-> ->]]|(t' & I & E')]; [now left|right; exists t; split; [now left|exact E]|right; exists t'; split; [now right|exact E']].
        * intros [H|(t' & [<-|I] & E')]; [auto| |right; exists t'; auto]. left. right. rewrite E in E'. now injection E' as -> ->.
      + destruct (IH m (fun t' I => Hs t' (or_intror I)) G) as [G2 V2]. split; [exact G2|]. intros k v. rewrite V2.
        split; (intros [H|(t' & I & E')]; [now left|right; exists t']).
        * split; [now right|exact E'].
        * destruct I as [<-|I]; [congruence|]. auto. }
  destruct (X (split ","%char s) m (fun t I => I) G0) as [G V]. split; [exact G|]. intros k v. rewrite V.
  split; (intros [H|(t & I & H)]; [now left|right; exists t]).
  - split; [exact I|]. now apply kept_iff.
  - split; [exact I|]. apply kept_iff. exact H.
Qed.

(* ---- the loop over the batch ---- *)
Lemma loop_values {F} ignore reqs : forall (b b' : @build_state F), good_pairs (b_pairs b) ->
  build_loop ignore b reqs = Ok b' ->
  good_pairs (b_pairs b') /\
  forall k v, has_value (b_pairs b') k v <-> has_value (b_pairs b) k v \/
    exists n r, nth_error reqs n = Some r /\ mentions (b_drop b || dropping ignore reqs n) (r_string r) k v.
Proof.
  induction reqs as [|r reqs IH]; intros b b' G H; cbn [build_loop] in H.
  - injection H as <-. split; [exact G|]. intros k v. split; [now left|]. intros [E|(n & r & E & _)]; [exact E|]. destruct n; discriminate.
  - unfold build_step in H. destruct (sfind _ (b_items b)); [discriminate|]. cbn [obind] in H.
    set (drop := b_drop b || (ignore && triggers (r_string r))) in *.
    destruct (add_pairs_values drop (r_string r) (b_pairs b) G) as [G1 V1].
    destruct (fun G' => IH _ _ G' H) as [G2 V2]; [exact G1|]. split; [exact G2|]. intros k v. rewrite V2. cbn [b_pairs b_drop] in *. rewrite V1.
    assert (D0 : b_drop b || dropping ignore (r :: reqs) 0 = drop).
    { unfold dropping, drop. cbn [firstn existsb]. now rewrite orb_false_r. }
    assert (DS : forall n, b_drop b || dropping ignore (r :: reqs) (S n) = drop || dropping ignore reqs n).
    { intros n. unfold dropping, drop. cbn [firstn existsb]. destruct ignore; cbn; [|now rewrite !orb_false_r].
      now rewrite orb_assoc. }
    split.
    + intros [[H1|H1]|(n & r' & E & H1)]; [now left| |].
      * right. exists 0%nat, r. split; [reflexivity|]. now rewrite D0.
      * right. exists (S n), r'. split; [exact E|]. now rewrite DS.
    + intros [H1|([|n] & r' & E & H1)]; [auto| |].
      * injection E as <-. rewrite D0 in H1. auto.
      * right. exists n, r'. split; [exact E|]. now rewrite <- DS.
Qed.

(* ---- the text ---- *)
Lemma key_text p : plain (fst p) -> fst p <> ""%string -> snd p <> [] ->
  Forall (fun v => plain v /\ v <> ""%string) (snd p) ->
  let t := (fst p ++ "=" ++ String.concat "/" (ssort (fun v => v) (snd p)))%string in
  has_char ","%char t = false /\ t <> ""%string /\
  split "="%char t = [fst p; String.concat "/" (ssort (fun v => v) (snd p))].
Proof.
  intros [Ck Ek] Nk Nv G. cbn zeta.
  assert (X : forall c, c <> "/"%char -> Forall (fun v => has_char c v = false) (snd p) ->
    has_char c (String.concat "/" (ssort (fun v => v) (snd p))) = false).
  { intros c Nc Hc. assert (Hs : Forall (fun v => has_char c v = false) (ssort (fun v => v) (snd p))).
    { rewrite <- (ssort_perm (fun v => v) (snd p)). exact Hc. }
    clear - Nc Hs. induction Hs as [|v l Hv Hl IH]; [reflexivity|]. destruct l as [|w l]; [exact Hv|].
    change (has_char c (v ++ String "/" "" ++ String.concat "/" (w :: l)) = false). rewrite !has_char_app, Hv, IH.
    cbn [has_char]. destruct (Ascii.eqb_spec "/" c); [now elim Nc|reflexivity]. }
  assert (Xc : has_char ","%char (String.concat "/" (ssort (fun v => v) (snd p))) = false).
  { apply X; [discriminate|]. eapply Forall_impl; [|exact G]. intros v [[A _] _]. exact A. }
  assert (Xe : has_char "="%char (String.concat "/" (ssort (fun v => v) (snd p))) = false).
  { apply X; [discriminate|]. eapply Forall_impl; [|exact G]. intros v [[_ A] _]. exact A. }
  split; [rewrite !has_char_app, Ck, Xc; reflexivity|]. split; [destruct (fst p); [contradiction|discriminate]|].
  assert (N : String.concat "/" (ssort (fun v => v) (snd p)) <> ""%string).
  { pose proof (ssort_perm (fun v : string => v) (snd p)) as P. destruct (ssort (fun v => v) (snd p)) as [|v [|w l]].
    - apply Permutation_sym, Permutation_nil in P. congruence.
    - assert (I : In v (snd p)) by (eapply Permutation_in; [symmetry; exact P|now left]). cbn [String.concat].
      rewrite Forall_forall in G. exact (proj2 (G v I)).
    - cbn [String.concat]. destruct v; discriminate. }
  unfold split. rewrite split_piece by exact Ek. cbn [String.append split_]. rewrite Ascii.eqb_refl.
  destruct (String.eqb_spec (fst p) ""); [contradiction|]. f_equal.
  set (w := String.concat _ _) in *. rewrite <- (sapp_nil_r w) at 1. rewrite split_piece by exact Xe. cbn [String.append split_].
  destruct (String.eqb_spec w ""); [contradiction|reflexivity].
Qed.

(* the tokens of pieces that may have separators of their own *)
Lemma split_cat c l : forall cur, has_char c cur = false ->
  split_ c (String.concat (String c "") l) cur =
  match l with [] => split_ c "" cur | s :: r => split_ c s cur ++ concat (map (split c) r) end.
Proof.
  induction l as [|s l IH]; intros cur Hc; [reflexivity|]. destruct l as [|s' l].
  - cbn [String.concat map List.concat]. now rewrite app_nil_r.
  - change (String.concat (String c "") (s :: s' :: l)) with (s ++ String c (String.concat (String c "") (s' :: l)))%string.
    assert (X : forall s cur, has_char c cur = false -> forall rest,
      split_ c (s ++ String c rest) cur = split_ c s cur ++ split_ c rest "").
    { clear. induction s as [|a s IH]; intros cur Hc rest; cbn [String.append split_].
      - rewrite Ascii.eqb_refl. destruct (String.eqb cur ""); reflexivity.
      - destruct (Ascii.eqb a c) eqn:E.
        + rewrite IH by reflexivity. destruct (String.eqb cur ""); reflexivity.
        + apply IH. rewrite has_char_app, Hc. cbn. now rewrite E. }
    rewrite X by exact Hc. f_equal. rewrite IH by reflexivity. reflexivity.
Qed.

Lemma read_union m : good_pairs m ->
  read_request (union_string m) =
  map (fun p => (fst p, concat (map (split "/"%char) (ssort (fun v => v) (snd p))))) (in_key_order m).
Proof.
  intros [N G]. unfold read_request, union_string.
  assert (G' : Forall (fun p => plain (fst p) /\ fst p <> ""%string /\ snd p <> [] /\
                   Forall (fun v => plain v /\ v <> ""%string) (snd p)) (in_key_order m)).
  { unfold in_key_order. rewrite <- (ssort_perm fst m). exact G. }
  set (l := in_key_order m) in *. clearbody l. clear N G m.
  set (txt := fun p : string * list string => (fst p ++ "=" ++ String.concat "/" (ssort (fun v => v) (snd p)))%string).
  assert (E : split ","%char ("retrieve," ++ String.concat "," (map txt l)) = "retrieve"%string :: map txt l).
  { change ("retrieve," ++ String.concat "," (map txt l))%string
      with ("retrieve" ++ String "," (String.concat "," (map txt l)))%string.
    unfold split. rewrite split_piece by reflexivity. cbn [String.append split_]. cbn [Ascii.eqb Bool.eqb String.eqb].
    f_equal. change ","%string with (String ","%char ""). fold (split ","%char (String.concat (String ","%char "") (map txt l))).
    rewrite split_concat.
    - assert (X : forall l', Forall (fun t => t <> ""%string) l' -> filter nonempty l' = l').
      { induction 1 as [|t l' Ht _ IH]; [reflexivity|]. cbn [filter]. unfold nonempty at 1.
        destruct (String.eqb_spec t ""); [contradiction|]. cbn [negb]. now f_equal. }
      apply X. rewrite Forall_map. eapply Forall_impl; [|exact G']. intros p (A & B & C & D). exact (proj1 (proj2 (key_text p A B C D))).
    - rewrite Forall_map. eapply Forall_impl; [|exact G']. intros p (A & B & C & D). exact (proj1 (key_text p A B C D)). }
  rewrite E. cbn [tl]. rewrite map_map. apply map_ext_in. intros p I. rewrite Forall_forall in G'.
  destruct (G' p I) as (A & B & C & D). unfold txt at 1. rewrite (proj2 (proj2 (key_text p A B C D))). f_equal.
  unfold split at 1. change "/"%string with (String "/"%char ""). rewrite split_cat by reflexivity.
  destruct (ssort _ (snd p)); reflexivity.
Qed.

Theorem union_covers {F} ignore reqs u reqs' its :
  build_request_map (F := F) ignore reqs = Ok (u, reqs', its) ->
  hd ""%string (split ","%char u) = "retrieve"%string /\
  NoDup (map fst (read_request u)) /\
  forall k v, has_value (read_request u) k v <->
    exists n r, nth_error reqs n = Some r /\ asks (dropping ignore reqs n) (r_string r) k v.
Proof.
  unfold build_request_map. destruct (build_loop _ _ reqs) as [b'| |] eqn:E; try discriminate. intros [= <- _ _].
  destruct (loop_values ignore reqs (mk_build false [] [] []) b') as [G V]; [split; constructor|exact E|].
  split.
  { unfold union_string. change ("retrieve," ++ ?x)%string with ("retrieve" ++ String "," x)%string.
    unfold split. rewrite split_piece by reflexivity. reflexivity. }
  rewrite (read_union _ G). split.
  { rewrite map_map. cbn [fst]. unfold in_key_order. eapply Permutation_NoDup; [apply Permutation_map, ssort_perm|exact (proj1 G)]. }
  intros k v. unfold has_value. split.
  - intros (vs & I & J). apply in_map_iff in I as ([k0 ws] & [= <- <-] & I). cbn [fst snd] in *.
    apply in_concat in J as (l & Il & Iv). apply in_map_iff in Il as (w & <- & Iw).
    apply (Permutation_in _ (Permutation_sym (ssort_perm _ _))) in Iw, I.
    destruct (proj1 (V k0 w)) as [(x & [] & _)|(n & r & En & t & It & Es & Hd)]; [exists ws; auto|].
    exists n, r. split; [exact En|]. exists t, w. auto.
  - intros (n & r & En & t & w & It & Es & Iv & Hd).
    destruct (proj2 (V k w)) as (ws & I & Iw).
    { right. exists n, r. split; [exact En|]. exists t. auto. }
    exists (concat (map (split "/"%char) (ssort (fun v => v) ws))). split.
    + apply in_map_iff. exists (k, ws). split; [reflexivity|]. apply (Permutation_in _ (ssort_perm _ _)). exact I.
    + apply in_concat. exists (split "/"%char w). split; [|exact Iv]. apply in_map. apply (Permutation_in _ (ssort_perm _ _)). exact Iw.
Qed.
