(* Proofs about canonical requests (Engine.cc:35-122, Lister.cc:59-82): C37, C38, C39, C41 *)
From Coq Require Import Lia Permutation Sorted.
From Verif Require Import Base BaseLemmas ModelRange ModelInfo ModelSimple ModelJumper ModelStrings
  ModelEngine SpecEngine ProofsStrings.

(* ---- join ---- *)

Lemma join_concat_ : forall l back, NoDup l -> back = last l ""%string ->
  join_ back l = String.concat "," l.
Proof.
  induction l as [|x l IH]; intros back ND ->; [reflexivity|].
  inversion ND as [|? ? Nx NDl]; subst. destruct l as [|y l].
  - cbn. rewrite String.eqb_refl. rewrite sapp_nil_r. reflexivity.
  - change (last (x :: y :: l) ""%string) with (last (y :: l) ""%string).
    change (join_ (last (y :: l) ""%string) (x :: y :: l))
      with (x ++ (if String.eqb x (last (y :: l) ""%string) then "" else ",")
              ++ join_ (last (y :: l) ""%string) (y :: l))%string.
    rewrite IH by auto.
    destruct (String.eqb_spec x (last (y :: l) ""%string)) as [E|N]; [|reflexivity].
    exfalso. apply Nx. rewrite E.
    rewrite (app_removelast_last (l := y :: l) ""%string) at 2 by discriminate.
    apply in_or_app. right. left. reflexivity.
Qed.
Lemma join_concat : forall l, NoDup l -> join l = String.concat "," l.
Proof. intros l ND. apply join_concat_; auto. Qed.

(* ---- canonical ---- *)

Lemma sanitized_perm : forall drop s s', Permutation (split ","%char s) (split ","%char s') ->
  Permutation (sanitized drop s) (sanitized drop s').
Proof.
  intros drop s s' P. unfold sanitized. induction P; cbn.
  - constructor.
  - destruct (is_kept drop x); [constructor|]; assumption.
  - destruct (is_kept drop x), (is_kept drop y); try reflexivity. apply perm_swap.
  - etransitivity; eassumption.
Qed.

Lemma canonical_perm : forall drop s s', Permutation (split ","%char s) (split ","%char s') ->
  canonical drop s = canonical drop s'.
Proof.
  intros drop s s' P. unfold canonical. f_equal. apply ssort_id_perm, sanitized_perm, P.
Qed.

Lemma existsb_perm : forall {X} (f : X -> bool) l l', Permutation l l' -> existsb f l = existsb f l'.
Proof.
  intros X f l l' P. induction P; cbn; try congruence.
  rewrite !orb_assoc. f_equal. apply orb_comm.
Qed.

Lemma triggers_split : forall s, triggers s =
  existsb (contains "year") (split ","%char s) && existsb (contains "month") (split ","%char s)
  && existsb (contains "date") (split ","%char s).
Proof.
  intro s. unfold triggers.
  rewrite (contains_split ","%char "year"), (contains_split ","%char "month"),
          (contains_split ","%char "date"); try reflexivity; discriminate.
Qed.

Lemma triggers_perm : forall s s', Permutation (split ","%char s) (split ","%char s') ->
  triggers s = triggers s'.
Proof. intros s s' P. rewrite !triggers_split, !(existsb_perm _ _ _ P). reflexivity. Qed.

Lemma single_perm : forall ignore s s', Permutation (split ","%char s) (split ","%char s') ->
  single ignore s = single ignore s'.
Proof.
  intros ignore s s' P. unfold single. rewrite (triggers_perm s s' P). apply canonical_perm, P.
Qed.

Lemma filter_perm : forall {X} (f : X -> bool) l l', Permutation l l' ->
  Permutation (filter f l) (filter f l').
Proof.
  intros X f l l' P. induction P; cbn.
  - constructor.
  - destruct (f x); [constructor|]; assumption.
  - destruct (f x), (f y); try reflexivity. apply perm_swap.
  - etransitivity; eassumption.
Qed.

Lemma single_pairs_perm : forall ignore l l', Permutation l l' ->
  (forall k v, In (k, v) l -> has_char ","%char k = false /\ has_char ","%char v = false) ->
  single ignore (request_string l) = single ignore (request_string l').
Proof.
  intros ignore l l' P H. apply single_perm. unfold request_string.
  assert (G : forall l, (forall k v, In (k, v) l -> has_char ","%char k = false /\ has_char ","%char v = false) ->
              Forall (fun p => has_char ","%char p = false) (map pair_string l)).
  { intros m Hm. apply Forall_forall. intros x Hx. apply in_map_iff in Hx.
    destruct Hx as ([k v] & <- & I). unfold pair_string. rewrite !has_char_app. cbn.
    destruct (Hm k v I) as [-> ->]. reflexivity. }
  rewrite !split_concat.
  - apply filter_perm, Permutation_map, P.
  - apply G. intros k v I. apply H. eapply Permutation_in; [symmetry; exact P|exact I].
  - apply G, H.
Qed.

Lemma sanitized_in : forall drop s t, In t (sanitized drop s) ->
  In t (split ","%char s) /\ is_kept drop t = true.
Proof. intros drop s t H. apply filter_In in H. exact H. Qed.

Lemma is_kept_weaken : forall b1 b2 t, (b2 = true -> b1 = true) ->
  is_kept b1 t = true -> is_kept b2 t = true.
Proof.
  intros b1 b2 t W. unfold is_kept, kept.
  destruct (split "="%char t) as [|k [|v [|? ?]]]; auto.
  destruct b2; [rewrite (W eq_refl); auto|]. cbn. auto.
Qed.

Lemma filter_id : forall {X} (f : X -> bool) l, (forall x, In x l -> f x = true) -> filter f l = l.
Proof.
  intros X f l H. induction l as [|x l IH]; cbn; [reflexivity|].
  rewrite (H x (or_introl eq_refl)). f_equal. apply IH. intros y I. apply H. right. exact I.
Qed.

(* the tokens of a canonical string *)
Lemma split_canonical : forall drop s, NoDup (sanitized drop s) ->
  split ","%char (canonical drop s) = ssort (fun x => x) (sanitized drop s).
Proof.
  intros drop s ND. unfold canonical.
  assert (ND' : NoDup (ssort (fun x => x) (sanitized drop s)))
    by (eapply Permutation_NoDup; [apply ssort_perm|exact ND]).
  assert (I : forall t, In t (ssort (fun x => x) (sanitized drop s)) ->
              has_char ","%char t = false /\ t <> ""%string).
  { intros t Ht. apply (Permutation_in _ (Permutation_sym (ssort_perm _ _))) in Ht.
    apply sanitized_in in Ht. exact (split_free _ _ _ (proj1 Ht)). }
  rewrite join_concat by exact ND'.
  change ","%string with (String ","%char ""). rewrite split_concat.
  - apply filter_id. intros t Ht. unfold nonempty.
    destruct (String.eqb_spec t ""); [|reflexivity]. exfalso. exact (proj2 (I t Ht) e).
  - apply Forall_forall. intros t Ht. exact (proj1 (I t Ht)).
Qed.

Lemma canonical_idem : forall b1 b2 s, (b2 = true -> b1 = true) -> NoDup (sanitized b1 s) ->
  canonical b2 (canonical b1 s) = canonical b1 s.
Proof.
  intros b1 b2 s W ND. unfold canonical at 1. unfold sanitized.
  rewrite split_canonical by exact ND. rewrite filter_id.
  - unfold canonical. f_equal. apply ssort_fix; [apply ssort_sorted|auto].
  - intros t Ht. apply (Permutation_in _ (Permutation_sym (ssort_perm _ _))) in Ht.
    apply sanitized_in in Ht. eapply is_kept_weaken; [exact W|exact (proj2 Ht)].
Qed.

Lemma triggers_canonical : forall drop s, NoDup (sanitized drop s) ->
  triggers (canonical drop s) = true -> triggers s = true.
Proof.
  intros drop s ND. rewrite !triggers_split, split_canonical by exact ND.
  assert (G : forall w, existsb (contains w) (ssort (fun x => x) (sanitized drop s)) = true ->
              existsb (contains w) (split ","%char s) = true).
  { intros w H. apply existsb_exists in H. destruct H as (t & Ht & C).
    apply (Permutation_in _ (Permutation_sym (ssort_perm _ _))) in Ht. apply sanitized_in in Ht.
    apply existsb_exists. exists t. tauto. }
  rewrite !andb_true_iff. intros [[H1 H2] H3]. auto.
Qed.

Lemma single_idem : forall ignore s, NoDup (split ","%char s) ->
  single ignore (single ignore s) = single ignore s.
Proof.
  intros ignore s ND. unfold single at 2 3.
  assert (NDs : NoDup (sanitized (ignore && triggers s) s)) by (apply NoDup_filter; exact ND).
  unfold single. apply canonical_idem; [|exact NDs].
  intro H. apply andb_true_iff in H. destruct H as [-> H].
  rewrite (triggers_canonical _ _ NDs H). reflexivity.
Qed.

(* ---- the batch ---- *)

Lemma canon_requests_length : forall ignore l drop, length (canon_requests ignore drop l) = length l.
Proof. induction l as [|r t IH]; intro drop; cbn; [reflexivity|]. f_equal. apply IH. Qed.

Lemma canon_requests_ranges : forall ignore l drop,
  map r_ranges (canon_requests ignore drop l) = map r_ranges l /\
  map r_hash (canon_requests ignore drop l) = map r_hash l.
Proof.
  induction l as [|r t IH]; intro drop; cbn; [auto|].
  destruct (IH (drop || (ignore && triggers (r_string r)))) as [-> ->]. auto.
Qed.

Section Build.
Context {F : Type}.
Notation entry := (fun r => (r_string r, new_item (F := F) r)).

Lemma build_loop_ok : forall ignore l (b : build_state (F := F)),
  NoDup (map fst (b_items b) ++ map r_string (canon_requests ignore (b_drop b) l)) ->
  exists d ps, build_loop ignore b l =
    Ok (mk_build d ps (b_requests b ++ canon_requests ignore (b_drop b) l)
                 (b_items b ++ map entry (canon_requests ignore (b_drop b) l))).
Proof.
  intros ignore l. induction l as [|r t IH]; intros b ND.
  - exists (b_drop b), (b_pairs b). cbn. rewrite !app_nil_r. destruct b; reflexivity.
  - cbn [build_loop canon_requests map] in *. unfold build_step.
    set (drop := b_drop b || (ignore && triggers (r_string r))) in *.
    set (r' := mk_request (canonical drop (r_string r)) (r_ranges r) (r_hash r)) in *.
    assert (Nf : sfind (canonical drop (r_string r)) (b_items b) = None).
    { apply sfind_none. intro I. apply NoDup_remove_2 in ND. apply ND, in_or_app. left. exact I. }
    rewrite Nf. cbn [obind].
    rewrite (semplace_new _ _ _ Nf).
    edestruct (IH (mk_build drop (add_pairs drop (r_string r) (b_pairs b)) (b_requests b ++ [r'])
                    (b_items b ++ [(canonical drop (r_string r), new_item r')]))) as (d & ps & E).
    { cbn [b_items b_drop]. rewrite map_app, <- app_assoc. exact ND. }
    exists d, ps. rewrite E. cbn [b_requests b_items b_drop]. rewrite <- !app_assoc. reflexivity.
Qed.

Lemma build_loop_clash : forall ignore l (b : build_state (F := F)),
  NoDup (map fst (b_items b)) ->
  ~ NoDup (map fst (b_items b) ++ map r_string (canon_requests ignore (b_drop b) l)) ->
  build_loop ignore b l = Throw ESeriousBug.
Proof.
  intros ignore l. induction l as [|r t IH]; intros b NDb ND.
  - exfalso. apply ND. cbn. rewrite app_nil_r. exact NDb.
  - cbn [build_loop canon_requests map] in *. unfold build_step.
    set (drop := b_drop b || (ignore && triggers (r_string r))) in *.
    set (r' := mk_request (canonical drop (r_string r)) (r_ranges r) (r_hash r)) in *.
    destruct (sfind (canonical drop (r_string r)) (b_items b)) as [i|] eqn:Nf; [reflexivity|].
    cbn [obind]. rewrite (semplace_new _ _ _ Nf). apply IH.
    + cbn [b_items]. apply keys_snoc; assumption.
    + cbn [b_items b_drop]. rewrite map_app, <- app_assoc. exact ND.
Qed.

Notation bmap := (build_request_map (F := F)).

Lemma build_map_ok : forall ignore l, NoDup (map r_string (canon_requests ignore false l)) ->
  exists u, bmap ignore l =
    Ok (u, canon_requests ignore false l, map entry (canon_requests ignore false l)).
Proof.
  intros ignore l ND. unfold build_request_map.
  destruct (build_loop_ok ignore l (mk_build false [] [] []) ND) as (d & ps & E).
  rewrite E. cbn. eauto.
Qed.
Lemma build_map_clash : forall ignore l, ~ NoDup (map r_string (canon_requests ignore false l)) ->
  bmap ignore l = Throw ESeriousBug.
Proof.
  intros ignore l ND. unfold build_request_map.
  rewrite (build_loop_clash ignore l (mk_build false [] [] [])); [reflexivity|constructor|exact ND].
Qed.
Lemma build_map_inv : forall ignore l u rs its, bmap ignore l = Ok (u, rs, its) ->
  rs = canon_requests ignore false l /\ its = map entry rs /\ NoDup (map r_string rs).
Proof.
  intros ignore l u rs its H.
  destruct (ListDec.NoDup_dec string_dec (map r_string (canon_requests ignore false l))) as [ND|ND].
  - destruct (build_map_ok ignore l ND) as (u' & E). rewrite E in H. injection H as <- <- <-. auto.
  - rewrite (build_map_clash ignore l ND) in H. discriminate.
Qed.

Lemma batch_canonical_inv : forall ignore l cs, batch_canonical (F := F) ignore l = Ok cs ->
  cs = map r_string (canon_requests ignore false l) /\ NoDup cs.
Proof.
  intros ignore l cs. unfold batch_canonical. destruct (bmap ignore l) as [[[u rs] its]| |] eqn:E; cbn; try discriminate.
  intros [= <-]. destruct (build_map_inv _ _ _ _ _ E) as (-> & _ & ND). auto.
Qed.

(* ---- C38 ---- *)

Lemma canon_requests_single : forall ignore l drop,
  (forall r, In r l -> drop || (ignore && existsb (fun r => triggers (r_string r)) l) = true ->
             canonical true (r_string r) = single ignore (r_string r)) ->
  map r_string (canon_requests ignore drop l) = map (fun r => single ignore (r_string r)) l.
Proof.
  intros ignore l. induction l as [|r t IH]; intros drop H; [reflexivity|].
  cbn [canon_requests map r_string]. f_equal.
  - unfold single. destruct drop; cbn [orb].
    + apply (H r (or_introl eq_refl)). reflexivity.
    + reflexivity.
  - apply IH. intros r' I E. apply H; [right; exact I|]. cbn [existsb].
    destruct drop; [reflexivity|]. cbn [orb] in *.
    destruct ignore; [|discriminate]. cbn [andb] in *.
    exact E.
Qed.
End Build.

Lemma batch_independent : forall F ignore l cs,
  (ignore = true -> (exists r, In r l /\ triggers (r_string r) = true) ->
   forall r, In r l -> triggers (r_string r) = true \/ no_year_month (r_string r)) ->
  batch_canonical (F := F) ignore l = Ok cs ->
  cs = map (fun r => single ignore (r_string r)) l.
Proof.
  intros F ignore l cs H E. apply batch_canonical_inv in E. destruct E as [-> _].
  apply canon_requests_single. cbn [orb]. intros r I T.
  apply andb_true_iff in T. destruct T as [-> T]. apply existsb_exists in T.
  unfold single. cbn [andb]. destruct (H eq_refl T r I) as [-> | N]; [reflexivity|].
  destruct (triggers (r_string r)); [reflexivity|exact N].
Qed.

(* ---- C39 ---- *)

Lemma duplicates_refused : forall F ignore l i j ri rj,
  nth_error (canon_requests ignore false l) i = Some ri ->
  nth_error (canon_requests ignore false l) j = Some rj ->
  i <> j -> r_string ri = r_string rj ->
  build_request_map (F := F) ignore l = Throw ESeriousBug.
Proof.
  intros F ignore l i j ri rj Hi Hj N E. apply build_map_clash. intro ND.
  apply N. eapply (proj1 (NoDup_nth_error _) ND).
  - rewrite map_length. apply nth_error_Some. congruence.
  - rewrite !nth_error_map, Hi, Hj. cbn. congruence.
Qed.

(* ---- C41 ---- *)

Definition keep_pair (drop : bool) (p : string * string) : bool :=
  negb (String.eqb (snd p) "") &&
  negb (drop && (String.eqb (fst p) "year" || String.eqb (fst p) "month")).

Lemma is_kept_pair : forall drop k v, plain k -> plain v -> k <> ""%string ->
  is_kept drop (pair_string (k, v)) = keep_pair drop (k, v).
Proof.
  intros drop k v [_ Hk] [_ Hv] Nk. unfold is_kept, kept, pair_string, keep_pair. cbn [fst snd].
  change (k ++ "=" ++ v)%string with (String.concat (String "="%char "") [k; v]).
  rewrite split_concat by (repeat constructor; assumption).
  cbn [filter]. unfold nonempty.
  destruct (String.eqb_spec k "") as [->|_]; [congruence|]. cbn [negb].
  destruct (String.eqb_spec v "") as [->|_]; cbn; [reflexivity|].
  destruct (drop && (String.eqb k "year" || String.eqb k "month")); reflexivity.
Qed.

Lemma filter_map : forall {X Y} (f : X -> Y) (p : Y -> bool) (q : X -> bool) l,
  (forall x, In x l -> p (f x) = q x) -> filter p (map f l) = map f (filter q l).
Proof.
  intros X Y f p q l H. induction l as [|x l IH]; cbn; [reflexivity|].
  rewrite (H x (or_introl eq_refl)), IH by (intros y I; apply H; right; exact I).
  destruct (q x); reflexivity.
Qed.

Lemma sanitized_pairs : forall drop l, wf_pairs l ->
  sanitized drop (request_string l) = map pair_string (filter (keep_pair drop) l).
Proof.
  intros drop l [_ W]. unfold sanitized, request_string.
  change ","%string with (String ","%char ""). rewrite split_concat.
  - rewrite (filter_id nonempty).
    + apply filter_map. intros [k v] I. destruct (W k v I) as (Hk & Hv & Nk).
      apply is_kept_pair; assumption.
    + intros x Hx. apply in_map_iff in Hx. destruct Hx as ([k v] & <- & I).
      unfold nonempty, pair_string. cbn [fst snd]. destruct k; reflexivity.
  - apply Forall_forall. intros x Hx. apply in_map_iff in Hx. destruct Hx as ([k v] & <- & I).
    destruct (W k v I) as ([Hk _] & [Hv _] & _). unfold pair_string. cbn [fst snd].
    rewrite !has_char_app, Hk, Hv. reflexivity.
Qed.

Lemma has_char_cons_app : forall c k v k' v',
  has_char c k = false -> has_char c k' = false ->
  (k ++ String c v)%string = (k' ++ String c v')%string -> k = k' /\ v = v'.
Proof.
  intros c. induction k as [|a k IH]; intros v [|b k'] v' H H' E; cbn in *.
  - injection E as ->. auto.
  - injection E as -> _. rewrite Ascii.eqb_refl in H'. discriminate.
  - injection E as -> _. rewrite Ascii.eqb_refl in H. discriminate.
  - injection E as -> E. apply orb_false_elim in H, H'.
    destruct (IH v k' v' (proj2 H) (proj2 H') E) as [-> ->]. auto.
Qed.

Lemma pair_string_inj : forall x y, plain (fst x) -> plain (fst y) ->
  pair_string x = pair_string y -> x = y.
Proof.
  intros [k v] [k' v'] [_ H] [_ H'] E. unfold pair_string in E. cbn in *.
  change ("=" ++ v)%string with (String "="%char v) in E.
  change ("=" ++ v')%string with (String "="%char v') in E.
  destruct (has_char_cons_app _ _ _ _ _ H H' E) as [-> ->]. reflexivity.
Qed.

Lemma pair_string_le : forall k v k' v', after_equals k' = true -> k <> k' ->
  String.leb k k' = true -> String.leb (pair_string (k, v)) (pair_string (k', v')) = true.
Proof.
  unfold String.leb, pair_string. cbn [fst snd].
  induction k as [|a k IH]; intros v [|b k'] v' A N L; cbn in *.
  - congruence.
  - apply andb_true_iff in A. destruct A as [A _].
    apply N.ltb_lt in A. apply N.compare_lt_iff in A. cbn in A. rewrite A. reflexivity.
  - discriminate.
  - rewrite ascii_compare_N in *. apply andb_true_iff in A. destruct A as [_ A].
    destruct (N.compare_spec (N_of_ascii a) (N_of_ascii b)) as [E|E|E]; try discriminate; [|reflexivity].
    apply (f_equal ascii_of_N) in E. rewrite !ascii_N_embedding in E. subst b.
    apply IH; auto. congruence.
Qed.

Lemma filter_sorted : forall {X} (R : X -> X -> Prop) (f : X -> bool) l,
  StronglySorted R l -> StronglySorted R (filter f l).
Proof.
  intros X R f l S. induction S as [|x l S IH H]; cbn; [constructor|].
  destruct (f x); [|exact IH]. constructor; [exact IH|].
  apply Forall_forall. intros y I. apply filter_In in I. exact (proj1 (Forall_forall _ _) H y (proj1 I)).
Qed.

Lemma filter_filter : forall {X} (f g : X -> bool) l,
  filter f (filter g l) = filter (fun x => g x && f x) l.
Proof.
  intros X f g l. induction l as [|x l IH]; cbn; [reflexivity|].
  destruct (g x); cbn; [destruct (f x); congruence|exact IH].
Qed.

Lemma keys_inj : forall (l : list (string * string)) x y, NoDup (map fst l) ->
  In x l -> In y l -> fst x = fst y -> x = y.
Proof.
  intros l [k v] [k' v'] ND Ix Iy E. cbn in E. subst k'.
  pose proof (in_sfind _ _ _ ND Ix) as E1. pose proof (in_sfind _ _ _ ND Iy) as E2. congruence.
Qed.

(* sorting "key=value" texts is sorting by key *)
Lemma sort_pairs : forall m, wf_pairs m -> (forall k v, In (k, v) m -> after_equals k = true) ->
  ssort (fun x => x) (map pair_string m) = map pair_string (ssort fst m).
Proof.
  intros m [ND W] A. symmetry. apply (sorted_unique (fun x : string => x)); auto using ssort_sorted.
  - pose proof (ssort_sorted fst m) as S. pose proof (ssort_perm fst m) as P.
    assert (ND' : NoDup (map fst (ssort fst m)))
      by (eapply Permutation_NoDup; [apply Permutation_map, P|exact ND]).
    assert (A' : forall k v, In (k, v) (ssort fst m) -> after_equals k = true).
    { intros k v I. eapply A. eapply Permutation_in; [symmetry; exact P|exact I]. }
    clear -S ND' A'. revert ND' A'. induction S as [|x l S IH H]; intros ND A; cbn; [constructor|].
    inversion ND as [|? ? Nx NDl]; subst.
    constructor.
    + apply IH; [exact NDl|]. intros k v I. eapply A. right. exact I.
    + apply Forall_forall. intros y Iy. apply in_map_iff in Iy. destruct Iy as ([k' v'] & <- & I).
      destruct x as [k v]. apply pair_string_le.
      * eapply A. right. exact I.
      * intros ->. apply Nx. apply (in_map fst) in I. exact I.
      * exact (proj1 (Forall_forall _ _) H _ I).
  - etransitivity; [|apply ssort_perm]. apply Permutation_map. symmetry. apply ssort_perm.
Qed.

Lemma wf_filter : forall f l, wf_pairs l -> wf_pairs (filter f l).
Proof.
  intros f l [ND W]. split.
  - induction l as [|x l IH]; cbn; [constructor|]. inversion ND as [|? ? Nx NDl]; subst.
    assert (IHl : NoDup (map fst (filter f l))).
    { apply IH; [exact NDl|]. intros k v I. apply W. right. exact I. }
    destruct (f x); [|exact IHl]. cbn. constructor; [|exact IHl].
    intro I. apply in_map_iff in I. destruct I as (y & E & I). apply filter_In in I.
    apply Nx. rewrite <- E. apply in_map, (proj1 I).
  - intros k v I. apply filter_In in I. apply W, (proj1 I).
Qed.

Lemma NoDup_map_inj : forall {X Y} (f : X -> Y) l, NoDup l ->
  (forall x y, In x l -> In y l -> f x = f y -> x = y) -> NoDup (map f l).
Proof.
  intros X Y f l ND H. induction ND as [|x l Nx ND IH]; cbn; [constructor|].
  constructor.
  - intro I. apply in_map_iff in I. destruct I as (y & E & I). apply Nx.
    rewrite (H x y); auto; [left; reflexivity|right; exact I].
  - apply IH. intros a b Ia Ib. apply H; right; assumption.
Qed.

Lemma canonical_pairs : forall drop l, wf_pairs l ->
  (forall k v, In (k, v) l -> after_equals k = true) ->
  canonical drop (request_string l) =
  String.concat "," (map pair_string (ssort fst (filter (keep_pair drop) l))).
Proof.
  intros drop l W A. unfold canonical. rewrite (sanitized_pairs drop l W).
  pose proof (wf_filter (keep_pair drop) l W) as Wf.
  rewrite sort_pairs; [|exact Wf|].
  - apply join_concat. apply NoDup_map_inj.
    + apply (Permutation_NoDup (ssort_perm _ _)). eapply NoDup_map_inv. exact (proj1 Wf).
    + intros x y Ix Iy E.
      apply (Permutation_in _ (Permutation_sym (ssort_perm _ _))) in Ix, Iy.
      destruct x as [k v], y as [k' v']. destruct (proj2 Wf k v Ix) as (Hk & _).
      destruct (proj2 Wf k' v' Iy) as (Hk' & _). apply pair_string_inj; assumption.
  - intros k v I. apply filter_In in I. eapply A, (proj1 I).
Qed.

Lemma existsb_ssort : forall {X} (key : X -> string) (f : X -> bool) l,
  existsb f (ssort key l) = existsb f l.
Proof. intros X key f l. symmetry. apply existsb_perm, ssort_perm. Qed.

Lemma fdbkey_pairs : forall ignore l, wf_pairs l ->
  fdbkey_to_str ignore l =
  String.concat "," (map pair_string (ssort fst (filter (keep_pair (ignore && has_key "date" l)) l))).
Proof.
  intros ignore l W. unfold fdbkey_to_str, in_key_order. rewrite existsb_ssort.
  change (existsb (fun p => String.eqb (fst p) "date") l) with (has_key "date" l).
  change (fun p : string * string => (fst p ++ "=" ++ snd p)%string) with pair_string.
  f_equal. f_equal.
  apply (sorted_unique fst).
  - destruct (ignore && has_key "date" l); repeat apply filter_sorted; apply ssort_sorted.
  - apply ssort_sorted.
  - assert (G : forall m, filter (fun p : string * string => negb (String.eqb (snd p) ""))
        (if ignore && has_key "date" l
         then filter (fun p => negb (String.eqb (fst p) "year" || String.eqb (fst p) "month")) m
         else m) = filter (keep_pair (ignore && has_key "date" l)) m).
    { intro m. destruct (ignore && has_key "date" l).
      - rewrite filter_filter. apply filter_ext. intros [k v]. unfold keep_pair. cbn.
        apply andb_comm.
      - apply filter_ext. intros [k v]. unfold keep_pair. cbn. rewrite andb_true_r. reflexivity. }
    rewrite G. etransitivity; [|apply ssort_perm]. apply filter_perm. symmetry. apply ssort_perm.
  - intros x y Ix Iy. apply (keys_inj l x y (proj1 W));
    destruct (ignore && has_key "date" l); repeat apply filter_In in Ix as [Ix _];
    repeat apply filter_In in Iy as [Iy _];
    eapply Permutation_in; try eassumption; symmetry; apply ssort_perm.
Qed.

Lemma catalogue_matches : forall ignore l, wf_pairs l ->
  (forall k v, In (k, v) l -> after_equals k = true) ->
  (ignore = true -> year_month_agree l) ->
  fdbkey_to_str ignore l = single ignore (request_string l).
Proof.
  intros ignore l W A H. rewrite (fdbkey_pairs ignore l W). unfold single.
  rewrite (canonical_pairs _ l W A). do 3 f_equal.
  destruct ignore; [|reflexivity]. cbn [andb].
  destruct (has_key "year" l || has_key "month" l) eqn:E.
  - rewrite <- (H eq_refl E). reflexivity.
  - apply filter_ext_in. intros [k v] I. unfold keep_pair. cbn [fst snd].
    replace (String.eqb k "year" || String.eqb k "month") with false.
    + rewrite !andb_false_r. reflexivity.
    + symmetry. apply orb_false_elim in E. destruct E as [E1 E2].
      unfold has_key in E1, E2.
      assert (X1 : String.eqb k "year" = false).
      { destruct (String.eqb k "year") eqn:X; [|reflexivity]. exfalso.
        assert (T : existsb (fun p => String.eqb (fst p) "year") l = true)
          by (apply existsb_exists; exists (k, v); auto). congruence. }
      assert (X2 : String.eqb k "month" = false).
      { destruct (String.eqb k "month") eqn:X; [|reflexivity]. exfalso.
        assert (T : existsb (fun p => String.eqb (fst p) "month") l = true)
          by (apply existsb_exists; exists (k, v); auto). congruence. }
      rewrite X1, X2. reflexivity.
Qed.

(* what is missing: no two different fields share the catalogue string *)
Lemma request_string_inj_canonical : forall l l', wf_pairs l -> wf_pairs l' ->
  (forall k v, In (k, v) l \/ In (k, v) l' -> after_equals k = true /\ v <> ""%string) ->
  single false (request_string l) = single false (request_string l') -> Permutation l l'.
Proof.
  intros l l' W W' A E. unfold single in E. cbn [andb] in E.
  rewrite (canonical_pairs false l W), (canonical_pairs false l' W') in E;
    try (intros k v I; apply (A k v); tauto).
  assert (G : forall m, (forall k v, In (k, v) m -> v <> ""%string) -> filter (keep_pair false) m = m).
  { intros m Hm. apply filter_id. intros [k v] I. unfold keep_pair. cbn.
    destruct (String.eqb_spec v "") as [->|_]; [exfalso; exact (Hm k _ I eq_refl)|reflexivity]. }
  rewrite !G in E by (intros k v I; apply (A k v); tauto).
  apply (f_equal (split ","%char)) in E.
  change ","%string with (String ","%char "") in E.
  assert (T : forall m, wf_pairs m -> split ","%char (String.concat (String ","%char "") (map pair_string (ssort fst m)))
              = map pair_string (ssort fst m)).
  { intros m [_ Wm]. rewrite split_concat.
    - apply filter_id. intros x Hx. apply in_map_iff in Hx. destruct Hx as ([k v] & <- & I).
      unfold nonempty, pair_string. cbn. destruct k; reflexivity.
    - apply Forall_forall. intros x Hx. apply in_map_iff in Hx. destruct Hx as ([k v] & <- & I).
      apply (Permutation_in _ (Permutation_sym (ssort_perm _ _))) in I.
      destruct (Wm k v I) as ([Hk _] & [Hv _] & _). unfold pair_string. cbn [fst snd].
      rewrite !has_char_app, Hk, Hv. reflexivity. }
  rewrite (T l W), (T l' W') in E.
  assert (E2 : ssort fst l = ssort fst l').
  { assert (P1 : forall x, In x (ssort fst l) -> plain (fst x)).
    { intros [k v] I. apply (Permutation_in _ (Permutation_sym (ssort_perm _ _))) in I.
      exact (proj1 (proj2 W k v I)). }
    assert (P2 : forall x, In x (ssort fst l') -> plain (fst x)).
    { intros [k v] I. apply (Permutation_in _ (Permutation_sym (ssort_perm _ _))) in I.
      exact (proj1 (proj2 W' k v I)). }
    clear -E P1 P2. revert E P1 P2. generalize (ssort fst l) as a. generalize (ssort fst l') as b.
    intros b a. revert b. induction a as [|x a IH]; intros [|y b] E P1 P2; cbn in E; try discriminate; [reflexivity|].
    injection E as E1 E. f_equal.
    - apply pair_string_inj; [apply P1|apply P2|exact E1]; left; reflexivity.
    - apply IH; [exact E| |]; intros z I; [apply P1|apply P2]; right; exact I. }
  etransitivity; [apply (ssort_perm fst)|]. rewrite E2. symmetry. apply ssort_perm.
Qed.
