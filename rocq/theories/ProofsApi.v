(* Proofs about the result iterator, the C interface and the Rust interface. *)
From Verif Require Import Base BaseLemmas ModelStrings ModelInfo ModelJumper ModelEngine ModelApi SpecApi.
From Coq Require Import Lia Arith.
Local Open Scope nat_scope.

Lemma add64_small a b : (a + b < two64)%N -> add64 a b = (a + b)%N.
Proof. intros H. unfold add64, w64. apply N.mod_small. exact H. Qed.

Lemma at_nth {A} (l : list A) i x : nth_error l i = Some x -> at_ l (N.of_nat i) = Ok x.
Proof. intros H. unfold at_. rewrite Nat2N.id, H. reflexivity. Qed.

Lemma set_at_ok {A} (l1 : list A) x y l2 :
  set_at (l1 ++ x :: l2) (N.of_nat (length l1)) y = Ok (l1 ++ y :: l2).
Proof.
  unfold set_at, lenN. rewrite app_length. cbn [length]. rewrite Nat2N.id.
  assert (H : (N.of_nat (length l1) <? N.of_nat (length l1 + S (length l2)))%N = true) by (apply N.ltb_lt; lia).
  rewrite H. rewrite firstn_app, Nat.sub_diag, firstn_all, firstn_O, app_nil_r.
  replace (S (length l1)) with (length l1 + 1) by lia.
  rewrite skipn_app, skipn_all2 by lia. replace (length l1 + 1 - length l1) with 1 by lia. reflexivity.
Qed.

Lemma set_at_ub {A} (l : list A) i y : length l <= i -> set_at l (N.of_nat i) y = UB.
Proof.
  intros H. unfold set_at, lenN.
  assert (E : (N.of_nat i <? N.of_nat (length l))%N = false) by (apply N.ltb_ge; lia).
  rewrite E. reflexivity.
Qed.

Lemma skipn_twice {A} a b : forall l : list A, skipn (a + b) l = skipn b (skipn a l).
Proof. induction a as [|a IH]; intros l; [reflexivity|]. destruct l; cbn; [rewrite skipn_nil; reflexivity|apply IH]. Qed.

(* ---- iterator ---- *)
Section Iterator.
Context {R : Type}.
Variable rs : list R.
Hypothesis fits : (lenN rs < two64)%N.

(* the source after k successful calls *)
Definition after (k : nat) : source R :=
  mk_source (repeat None (Nat.min k (length rs)) ++ map Some (skipn k rs)) (N.of_nat (Nat.min k (length rs))).

Lemma after_0 : after 0 = source_new (map Some rs).
Proof. reflexivity. Qed.

Lemma after_length k : length (s_data (after k)) = length rs.
Proof. cbn. rewrite app_length, repeat_length, map_length, skipn_length. lia. Qed.

Lemma has_next_after k : has_next (after k) = (k <? length rs).
Proof.
  unfold has_next, lenN. rewrite after_length. cbn [after s_index].
  destruct (Nat.ltb_spec k (length rs)); [apply N.ltb_lt | apply N.ltb_ge]; lia.
Qed.

Lemma next_after k : next (after k) = Ok (nth_error rs k, after (S k)).
Proof.
  unfold next. rewrite has_next_after. destruct (Nat.ltb_spec k (length rs)) as [H|H].
  - cbn [negb].
    destruct (nth_error rs k) as [r|] eqn:E; [|apply nth_error_None in E; lia].
    assert (Hs : skipn k rs = r :: skipn (S k) rs).
    { clear -E. revert k E. induction rs as [|a l IH]; intros [|k] E; cbn in *; try discriminate.
      - injection E as ->. reflexivity.
      - apply IH. exact E. }
    assert (Hd : s_data (after k) = repeat None k ++ Some r :: map Some (skipn (S k) rs)).
    { cbn [after s_data]. rewrite Hs. rewrite Nat.min_l by lia. reflexivity. }
    assert (Hi : s_index (after k) = N.of_nat (length (repeat (@None R) k))).
    { cbn [after s_index]. rewrite repeat_length. f_equal. lia. }
    rewrite Hd, Hi.
    assert (Ha : at_ (repeat None k ++ Some r :: map Some (skipn (S k) rs))
                   (N.of_nat (length (repeat (@None R) k))) = Ok (Some r)).
    { apply at_nth. rewrite nth_error_app2 by lia. rewrite Nat.sub_diag. reflexivity. }
    rewrite Ha. cbn [obind]. rewrite set_at_ok. cbn [obind].
    apply (f_equal (fun x => Ok (Some r, x))). unfold after. f_equal.
    + rewrite Nat.min_l by lia. cbn [repeat]. rewrite repeat_cons, <- app_assoc. reflexivity.
    + rewrite repeat_length. rewrite add64_small by (unfold lenN in fits; lia). lia.
  - cbn [negb]. assert (E : nth_error rs k = None) by (apply nth_error_None; lia). rewrite E.
    apply (f_equal (fun x => Ok (None, x))). unfold after. rewrite !skipn_all2 by lia. rewrite !Nat.min_r by lia. reflexivity.
Qed.

Lemma yields_S (l : list R) k : yields (S k) l = nth_error l 0 :: yields k (tl l).
Proof.
  unfold yields. destruct l as [|a l]; cbn [firstn map app tl nth_error length Nat.sub repeat].
  - rewrite firstn_nil. cbn [map app]. f_equal. f_equal. lia.
  - reflexivity.
Qed.

Lemma skipn_tl {A} (l : list A) k : tl (skipn k l) = skipn (S k) l.
Proof.
  revert l. induction k as [|k IH]; intros [|a l]; try reflexivity.
  cbn [skipn]. rewrite IH. destruct l; reflexivity.
Qed.

Lemma skipn_hd {A} (l : list A) k : nth_error (skipn k l) 0 = nth_error l k.
Proof. revert l. induction k as [|k IH]; intros [|a l]; try reflexivity. cbn. apply IH. Qed.

Lemma next_calls_after n : forall k, next_calls n (after k) = Ok (yields n (skipn k rs), after (k + n)).
Proof.
  induction n as [|n IH]; intros k.
  - cbn. rewrite Nat.add_0_r. reflexivity.
  - cbn [next_calls]. rewrite next_after. cbn [obind]. rewrite IH. cbn [obind].
    rewrite yields_S, skipn_tl, skipn_hd. replace (k + S n) with (S k + n) by lia. reflexivity.
Qed.

Lemma dump_after f : forall k, length rs <= k + f ->
  dump f (after k) = Ok (map Some (skipn k rs), after (Nat.max k (length rs))).
Proof.
  induction f as [|f IH]; intros k H; cbn [dump]; rewrite has_next_after;
    (destruct (Nat.ltb_spec k (length rs)) as [L|L]; cbn [negb]; [|rewrite skipn_all2, Nat.max_l by lia; reflexivity]).
  - lia.
  - rewrite next_after. cbn [obind]. rewrite IH by lia. cbn [obind].
    destruct (nth_error rs k) as [r|] eqn:E; [|apply nth_error_None in E; lia].
    assert (Hs : skipn k rs = r :: skipn (S k) rs).
    { rewrite <- skipn_tl. rewrite <- skipn_hd in E. destruct (skipn k rs); cbn in *; [discriminate|]. congruence. }
    rewrite Hs. rewrite !Nat.max_r by lia. reflexivity.
Qed.

Lemma c_next_calls_after n : forall k,
  c_next_calls n (Some (after k)) = Ok (c_yields n (skipn k rs), Some (after (k + n))).
Proof.
  induction n as [|n IH]; intros k.
  - cbn. rewrite Nat.add_0_r. reflexivity.
  - cbn [c_next_calls c_next]. rewrite next_after. cbn [obind].
    replace (k + S n) with (S k + n) by lia.
    destruct (nth_error rs k) as [r|] eqn:E; cbn [obind]; rewrite IH; cbn [obind].
    + assert (Hs : skipn k rs = r :: skipn (S k) rs).
      { rewrite <- skipn_tl. rewrite <- skipn_hd in E. destruct (skipn k rs); cbn in *; [discriminate|]. congruence. }
      rewrite Hs. reflexivity.
    + apply nth_error_None in E. unfold c_yields. rewrite !skipn_all2 by lia.
      rewrite !firstn_nil. cbn [map app length]. rewrite !Nat.sub_0_r. reflexivity.
Qed.

Lemma rust_next_calls_after n : forall k, rust_next_calls n (after k) = Ok (yields n (skipn k rs), after (k + n)).
Proof.
  induction n as [|n IH]; intros k.
  - cbn. rewrite Nat.add_0_r. reflexivity.
  - cbn [rust_next_calls]. replace (k + S n) with (S k + n) by lia.
    assert (H : rust_next (after k) = Ok (nth_error rs k, after (S k))).
    { unfold rust_next, bridge_next. rewrite has_next_after. pose proof (next_after k) as Hn.
      destruct (Nat.ltb_spec k (length rs)) as [L|L]; cbn [negb].
      - rewrite Hn. cbn [obind]. destruct (nth_error rs k) eqn:E; [reflexivity|].
        apply nth_error_None in E; lia.
      - unfold next in Hn. rewrite has_next_after in Hn.
        destruct (Nat.ltb_spec k (length rs)); [lia|]. exact Hn. }
    rewrite H. cbn [obind]. rewrite IH. cbn [obind]. rewrite yields_S, skipn_tl, skipn_hd. reflexivity.
Qed.

Theorem iterate_all : forall k,
  exists s, next_calls k (source_new (map Some rs)) = Ok (yields k rs, s) /\
            has_next s = (k <? length rs) /\
            exists s', dump_vector s = Ok (map Some (skipn k rs), s').
Proof.
  intros k. exists (after k). rewrite <- after_0, next_calls_after, has_next_after.
  split; [reflexivity|split; [reflexivity|]].
  eexists. unfold dump_vector. apply dump_after. rewrite after_length. lia.
Qed.

Theorem c_iterate_all : forall k,
  exists s, c_next_calls k (Some (source_new (map Some rs))) = Ok (c_yields k rs, s).
Proof. intros k. eexists. rewrite <- after_0. apply (c_next_calls_after k 0). Qed.

Theorem rust_iterate_all : forall k,
  exists s, rust_next_calls k (source_new (map Some rs)) = Ok (yields k rs, s).
Proof. intros k. eexists. rewrite <- after_0. apply (rust_next_calls_after k 0). Qed.
End Iterator.

(* ---- result accessors ---- *)
Section Accessors.
Context {V : Type}.

Lemma write_all_spec (vs : list V) : forall pre rest,
  (lenN (pre ++ rest) < two64)%N ->
  write_all (pre ++ rest) (lenN pre) vs =
    if length vs <=? length rest
    then Ok (pre ++ vs ++ skipn (length vs) rest, lenN (pre ++ vs)) else UB.
Proof.
  induction vs as [|v vs IH]; intros pre rest H; cbn [write_all].
  - cbn. rewrite app_nil_r. reflexivity.
  - destruct rest as [|r rest].
    + unfold lenN. rewrite set_at_ub by (rewrite app_length; cbn; lia). reflexivity.
    + unfold lenN at 1. rewrite set_at_ok. cbn [obind].
      replace (pre ++ v :: rest) with ((pre ++ [v]) ++ rest) by (rewrite <- app_assoc; reflexivity).
      replace (add64 (lenN pre) 1) with (lenN (pre ++ [v])).
      2:{ rewrite add64_small; unfold lenN in *; rewrite app_length in *; cbn [length] in *; lia. }
      rewrite IH.
      2:{ unfold lenN in *. rewrite !app_length in *. cbn [length] in *. lia. }
      cbn [length Nat.leb skipn]. destruct (length vs <=? length rest); [|reflexivity].
      rewrite <- !app_assoc. reflexivity.
Qed.

Lemma write_vectors_spec (vss : list (list V)) : forall pre rest,
  (lenN (pre ++ rest) < two64)%N ->
  write_vectors (pre ++ rest) (lenN pre) vss =
    if total vss <=? length rest
    then Ok (pre ++ concat vss ++ skipn (total vss) rest, lenN (pre ++ concat vss)) else UB.
Proof.
  unfold total. induction vss as [|vs vss IH]; intros pre rest H; cbn [write_vectors].
  - cbn. rewrite app_nil_r. reflexivity.
  - rewrite write_all_spec by exact H. cbn [concat]. rewrite app_length.
    destruct (Nat.leb_spec (length vs) (length rest)) as [L|L]; cbn [obind].
    + rewrite app_assoc. rewrite IH.
      2:{ unfold lenN in *. rewrite !app_length in *. rewrite skipn_length. lia. }
      rewrite skipn_length.
      assert (E : (length (concat vss) <=? length rest - length vs) = (length vs + length (concat vss) <=? length rest)).
      { destruct (Nat.leb_spec (length (concat vss)) (length rest - length vs));
          destruct (Nat.leb_spec (length vs + length (concat vss)) (length rest)); try reflexivity; lia. }
      rewrite E. destruct (_ <=? length rest); [|reflexivity].
      rewrite <- skipn_twice, <- !app_assoc. reflexivity.
    + destruct (Nat.leb_spec (length vs + length (concat vss)) (length rest)); [lia|reflexivity].
Qed.

Lemma total_values_acc (vss : list (list V)) : forall t,
  (t + N.of_nat (total vss) < two64)%N ->
  fold_left (fun t v => add64 t (lenN v)) vss t = (t + N.of_nat (total vss))%N.
Proof.
  unfold total. induction vss as [|vs vss IH]; intros t H; cbn [fold_left concat].
  - cbn. lia.
  - cbn [concat] in H. rewrite app_length in *. rewrite add64_small by (unfold lenN; lia).
    rewrite IH by (unfold lenN; lia). unfold lenN. lia.
Qed.

Lemma total_values_spec (vss : list (list V)) :
  (N.of_nat (total vss) < two64)%N -> total_values vss = N.of_nat (total vss).
Proof. intros H. unfold total_values. rewrite total_values_acc; [reflexivity|exact H]. Qed.

Lemma write_vectors_0 (vss : list (list V)) b :
  (lenN b < two64)%N ->
  write_vectors b 0 vss =
    if total vss <=? length b then Ok (concat vss ++ skipn (total vss) b, N.of_nat (total vss)) else UB.
Proof. intros H. exact (write_vectors_spec vss [] b H). Qed.

(* the values accessor, for a buffer of the declared size *)
Theorem result_values_exact (vss : list (list V)) (b : list V) (n : N) :
  (N.of_nat (total vss) < two64)%N -> (n < two64)%N -> lenN b = n ->
  c_result_values (Some vss) (Some b) n =
    if (N.of_nat (total vss) =? n)%N then Ok (CSuccess, Some (concat vss)) else Ok (CError, Some b).
Proof.
  intros Ht Hn Hb. unfold c_result_values. rewrite total_values_spec by exact Ht.
  destruct (N.eqb_spec (N.of_nat (total vss)) n) as [E|E]; cbn [negb]; [|reflexivity].
  rewrite write_vectors_0 by (rewrite Hb; exact Hn).
  unfold lenN in Hb.
  assert (L : total vss = length b) by (clear -E Hb; lia).
  rewrite L, Nat.leb_refl. cbn [obind]. rewrite skipn_all, app_nil_r.
  rewrite <- L, E, N.eqb_refl. reflexivity.
Qed.

(* the mask accessor *)
Theorem result_mask_spec (wss : list (list V)) (b : list V) (n : N) :
  (n < two64)%N -> lenN b = n ->
  c_result_mask (Some wss) (Some b) n =
    if (N.of_nat (total wss) <=? n)%N
    then Ok (if (N.of_nat (total wss) =? n)%N then CSuccess else CError, Some (concat wss ++ skipn (total wss) b))
    else UB.
Proof.
  intros Hn Hb. unfold c_result_mask. rewrite write_vectors_0 by (rewrite Hb; exact Hn).
  unfold lenN in Hb.
  destruct (Nat.leb_spec (total wss) (length b)); destruct (N.leb_spec (N.of_nat (total wss)) n); cbn [obind];
    try reflexivity; lia.
Qed.

Theorem result_mask_large (wss : list (list V)) (b : list V) (n : N) :
  (n < two64)%N -> lenN b = n -> (N.of_nat (total wss) <= n)%N ->
  c_result_mask (Some wss) (Some b) n =
    Ok (if (N.of_nat (total wss) =? n)%N then CSuccess else CError, Some (concat wss ++ skipn (total wss) b)).
Proof.
  intros Hn Hb Ht. rewrite result_mask_spec by assumption.
  destruct (N.leb_spec (N.of_nat (total wss)) n); [reflexivity|lia].
Qed.

Theorem result_mask_overrun (wss : list (list V)) (b : list V) (n : N) :
  (n < two64)%N -> lenN b = n -> (n < N.of_nat (total wss))%N ->
  c_result_mask (Some wss) (Some b) n = UB.
Proof.
  intros Hn Hb Ht. rewrite result_mask_spec by assumption.
  destruct (N.leb_spec (N.of_nat (total wss)) n); [lia|reflexivity].
Qed.
End Accessors.

Lemma axes_write (vs b : list string) :
  (lenN b < two64)%N -> lenN b = lenN vs -> write_all b 0 vs = Ok (vs, lenN vs).
Proof.
  intros H E. pose proof (write_all_spec vs [] b H) as W. cbn [app lenN length N.of_nat] in W.
  unfold lenN in E, W. cbn [length N.of_nat] in W.
  rewrite W. assert (L : length vs = length b) by (clear -E; lia).
  rewrite L, Nat.leb_refl, skipn_all, app_nil_r. unfold lenN. rewrite L. reflexivity.
Qed.

Theorem axes_accessors (m : axes_map) :
  (forall b n, (n < two64)%N -> lenN b = n ->
     c_axes_keys (Some m) b n = if (n =? lenN m)%N then Ok (CSuccess, map fst m) else Ok (CError, b)) /\
  (forall k b n, (n < two64)%N -> lenN b = n ->
     c_axes_values (Some m) (Some k) (Some b) n =
       match sfind k m with
       | Some vs => if (n =? lenN vs)%N then Ok (CSuccess, Some vs) else Ok (CError, Some b)
       | None => Ok (CError, Some b)
       end).
Proof.
  split.
  - intros b n Hn Hb. unfold c_axes_keys. destruct (N.eqb_spec n (lenN m)) as [E|E]; [|reflexivity].
    rewrite axes_write; [reflexivity| rewrite Hb; exact Hn|].
    unfold lenN in *. rewrite map_length. congruence.
  - intros k b n Hn Hb. unfold c_axes_values. destruct (sfind k m) as [vs|]; [|reflexivity].
    destruct (N.eqb_spec n (lenN vs)) as [E|E]; [|reflexivity].
    rewrite axes_write; [reflexivity| rewrite Hb; exact Hn|congruence].
Qed.

Lemma mask_words_comment (n : nat) : (n + 63) / 64 = 1 + n / 64 <-> n mod 64 <> 0.
Proof.
  pose proof (Nat.div_mod n 64 ltac:(lia)) as H. pose proof (Nat.mod_upper_bound n 64 ltac:(lia)) as H1.
  split; intros E.
  - intros Z. rewrite Z in H.
    assert (n + 63 = 64 * (n / 64) + 63) as Q by lia.
    assert ((n + 63) / 64 = n / 64) by (symmetry; apply Nat.div_unique with 63; lia). lia.
  - symmetry. apply Nat.div_unique with (n mod 64 - 1); lia.
Qed.

(* ---- range arrays ---- *)
Lemma laid_out_length l : length (laid_out l) = 2 * length l.
Proof. unfold laid_out. induction l as [|r l IH]; cbn [flat_map app length] in *; lia. Qed.

Lemma range_loop_spec (l : list interval) : forall pre f,
  (lenN (pre ++ laid_out l) < two64)%N -> length l <= f ->
  range_loop f (pre ++ laid_out l) (lenN (pre ++ laid_out l)) (lenN pre) = Ok l.
Proof.
  induction l as [|[a b] l IH]; intros pre f H Hf.
  - assert (E : (lenN pre <? lenN (pre ++ laid_out []))%N = false).
    { apply N.ltb_ge. unfold lenN. rewrite app_length. cbn. lia. }
    destruct f; cbn [range_loop]; rewrite E; reflexivity.
  - destruct f as [|f]; [cbn in Hf; lia|].
    assert (E : (lenN pre <? lenN (pre ++ laid_out ((a, b) :: l)))%N = true).
    { apply N.ltb_lt. unfold lenN. rewrite app_length. cbn. lia. }
    cbn [range_loop]. rewrite E. clear E.
    cbn [laid_out flat_map app fst snd] in *. fold (laid_out l) in *.
    assert (E1 : at_ (pre ++ a :: b :: laid_out l) (lenN pre) = Ok a).
    { apply at_nth. rewrite nth_error_app2 by lia. rewrite Nat.sub_diag. reflexivity. }
    rewrite E1. cbn [obind].
    assert (B : (lenN pre + 2 < two64)%N).
    { clear -H. unfold lenN in *. rewrite app_length in H. cbn [length] in H. lia. }
    rewrite add64_small by lia.
    assert (E2 : at_ (pre ++ a :: b :: laid_out l) (lenN pre + 1) = Ok b).
    { replace (lenN pre + 1)%N with (N.of_nat (S (length pre))) by (unfold lenN; lia).
      apply at_nth. rewrite nth_error_app2 by lia. replace (S (length pre) - length pre) with 1 by lia. reflexivity. }
    rewrite E2. cbn [obind]. rewrite add64_small by lia.
    replace (pre ++ a :: b :: laid_out l) with ((pre ++ [a; b]) ++ laid_out l) in * by (rewrite <- app_assoc; reflexivity).
    replace (lenN pre + 2)%N with (lenN (pre ++ [a; b])) by (unfold lenN; rewrite app_length; cbn [length]; lia).
    rewrite IH; [reflexivity|exact H|cbn in Hf; lia].
Qed.

Theorem ranges_of_array (l : list interval) :
  (lenN (laid_out l) < two64)%N -> c_ranges (Some (laid_out l)) (lenN (laid_out l)) = Ok l.
Proof.
  intros H. unfold c_ranges. cbn [not_null obind].
  assert (E : (lenN (laid_out l) mod 2 =? 0)%N = true).
  { unfold lenN. rewrite laid_out_length. apply N.eqb_eq.
    replace (N.of_nat (2 * length l)) with (N.of_nat (length l) * 2)%N by lia.
    apply N.mod_mul. discriminate. }
  rewrite E. cbn [assert_ obind].
  apply (range_loop_spec l [] (N.to_nat (lenN (laid_out l)))); [exact H|].
  unfold lenN. rewrite laid_out_length. lia.
Qed.

Theorem odd_array_refused (arr : option (list N)) (size : N) :
  N.odd size = true -> c_ranges arr size = Throw EAssert.
Proof.
  intros H. unfold c_ranges. destruct arr as [a|]; cbn [not_null obind]; [|reflexivity].
  assert (E : (size mod 2 =? 0)%N = false).
  { apply N.eqb_neq. rewrite <- N.bit0_mod, N.bit0_odd, H. discriminate. }
  rewrite E. reflexivity.
Qed.

(* every array of even length is the layout of a list of ranges *)
Lemma even_array_laid_out : forall k (arr : list N), length arr = 2 * k -> exists l, arr = laid_out l /\ length l = k.
Proof.
  induction k as [|k IH]; intros arr H.
  - destruct arr; [exists []; auto|discriminate].
  - destruct arr as [|a [|b arr]]; cbn in H; try lia.
    destruct (IH arr) as [l [-> Hl]]; [lia|]. exists ((a, b) :: l). cbn. auto.
Qed.

Theorem new_request_ranges (parsing : bool) (parse : string -> outcome string) (s : string)
    (l : list interval) (hash : option string) :
  (lenN (laid_out l) < two64)%N -> parsing = false ->
  c_new_request parsing parse true (Some s) (Some (laid_out l)) (lenN (laid_out l)) hash
    = Ok (CSuccess, Some (mk_request s l (c_string hash))).
Proof.
  intros H ->. unfold c_new_request. cbn [assert_ not_null obind]. rewrite ranges_of_array by exact H. reflexivity.
Qed.

Theorem new_request_parsed (parse : string -> outcome string) (s : string) (l : list interval) (hash : option string) :
  (lenN (laid_out l) < two64)%N -> parse s <> UB ->
  c_new_request true parse true (Some s) (Some (laid_out l)) (lenN (laid_out l)) hash
    = Ok (match parse s with
          | Ok s' => (CSuccess, Some (mk_request s' l (c_string hash)))
          | _ => (CError, None)
          end).
Proof.
  intros H Hp. unfold c_new_request. cbn [assert_ not_null obind]. rewrite ranges_of_array by exact H. cbn [obind].
  destruct (parse s); [reflexivity|reflexivity|congruence].
Qed.

Theorem new_path_request_ranges f sch o h port (l : list interval) (hash : option string) :
  (lenN (laid_out l) < two64)%N ->
  c_new_path_request true (Some f) (Some sch) o (Some h) port (Some (laid_out l)) (lenN (laid_out l)) hash
    = Ok (CSuccess, Some (mk_path_request f sch h port o l (c_string hash))).
Proof.
  intros H. unfold c_new_path_request. cbn [assert_ not_null obind]. rewrite ranges_of_array by exact H. reflexivity.
Qed.

Theorem odd_requests_refused (arr : option (list N)) (size : N) :
  N.odd size = true ->
  (forall parsing parse out s hash, c_new_request parsing parse out s arr size hash = Ok (CError, None)) /\
  (forall out f sch o h port hash, c_new_path_request out f sch o h port arr size hash = Ok (CError, None)) /\
  (forall F W flatten parse (handle : option (impl F W)) req hash w,
     c_extract_single flatten parse handle req arr size hash w = (Ok (CError, None), w)).
Proof.
  intros H. pose proof (odd_array_refused arr size H) as E. split; [|split].
  - intros parsing parse out s hash. unfold c_new_request.
    destruct out, s; cbn [assert_ not_null obind]; try reflexivity. rewrite E. reflexivity.
  - intros out f sch o h port hash. unfold c_new_path_request.
    destruct out, f, sch, h; cbn [assert_ not_null obind]; try reflexivity. rewrite E. reflexivity.
  - intros F W flatten parse handle req hash w. unfold c_extract_single.
    destruct handle, req; cbn [not_null obind]; try reflexivity. rewrite E. reflexivity.
Qed.

Theorem extract_single_ranges {F W} flatten (parse : string -> outcome string) (i : impl F W) req s'
    (l : list interval) hash w :
  (lenN (laid_out l) < two64)%N -> parse req = Ok s' ->
  c_extract_single flatten parse (Some i) (Some req) (Some (laid_out l)) (lenN (laid_out l)) hash w
    = let (r, w') := gj_extract i (map (fun r => mk_request r l (c_string hash)) (flatten s')) w in (try_catch r, w').
Proof.
  intros H Hp. unfold c_extract_single. cbn [not_null obind]. rewrite ranges_of_array by exact H. cbn [obind].
  rewrite Hp. reflexivity.
Qed.

(* ---- entry points ---- *)
Theorem empty_arguments_refused {F W} (i : impl F W) (w : W) :
  gj_scan_paths i [] w = (Throw EUser, w) /\
  (forall byfiles, gj_scan_requests i [] byfiles w = (Throw EUser, w)) /\
  gj_extract i [] w = (Throw EUser, w) /\
  gj_extract_paths i [] w = (Throw EUser, w) /\
  (forall flatten req ranges hash, flatten req = [] -> gj_extract_mars flatten i req ranges hash w = (Throw EUser, w)) /\
  (forall path offs ranges, path = ""%string \/ offs = [] \/ length offs <> length ranges ->
     gj_extract_direct i path offs ranges w = (Throw EUser, w)) /\
  (forall level, gj_axes i "" level w = (Throw EUser, w)).
Proof.
  split; [reflexivity|]. split; [reflexivity|]. split; [reflexivity|]. split; [reflexivity|].
  split; [|split; [|reflexivity]].
  - intros flatten req ranges hash E. unfold gj_extract_mars. rewrite E. reflexivity.
  - intros path offs ranges H. unfold gj_extract_direct.
    destruct (String.eqb_spec path ""); [reflexivity|].
    destruct (N.eqb_spec (lenN offs) 0); [reflexivity|].
    destruct (N.eqb_spec (lenN offs) (lenN ranges)) as [E|E]; [|reflexivity].
    exfalso. destruct H as [H|[H|H]]; [contradiction| |].
    + subst offs. contradiction.
    + apply H. unfold lenN in E. lia.
Qed.

(* and nothing else is refused there: every other call is passed on unchanged *)
Theorem other_arguments_passed_on {F W} (i : impl F W) :
  (forall paths, paths <> [] -> gj_scan_paths i paths = m_scan_paths i paths) /\
  (forall reqs byfiles, reqs <> [] -> gj_scan_requests i reqs byfiles = m_scan_requests i reqs byfiles) /\
  (forall reqs, reqs <> [] -> gj_extract i reqs = as_iterator (m_extract i reqs)) /\
  (forall reqs, reqs <> [] -> gj_extract_paths i reqs = as_iterator (m_extract_paths i reqs)) /\
  (forall path offs ranges, path <> ""%string -> offs <> [] -> length offs = length ranges ->
     gj_extract_direct i path offs ranges = as_iterator (m_extract_direct i path offs ranges)) /\
  (forall req level, req <> ""%string -> gj_axes i req level = m_axes i req level).
Proof.
  split; [|split; [|split; [|split; [|split]]]].
  - intros [|? ?] H; [congruence|reflexivity].
  - intros [|? ?] ? H; [congruence|reflexivity].
  - intros [|? ?] H; [congruence|reflexivity].
  - intros [|? ?] H; [congruence|reflexivity].
  - intros path offs ranges Hp Ho Hl. unfold gj_extract_direct.
    destruct (String.eqb_spec path ""); [contradiction|].
    destruct (N.eqb_spec (lenN offs) 0) as [E|E]; [destruct offs; [contradiction|unfold lenN in E; cbn in E; lia]|].
    unfold lenN. rewrite Hl, N.eqb_refl. reflexivity.
  - intros req level H. unfold gj_axes. destruct (String.eqb_spec req ""); [contradiction|reflexivity].
Qed.

Theorem c_empty_refused {F W} (i : impl F W) (w : W) (reqs : list request) (preqs : list path_request) :
  c_extract (Some i) reqs 0 w = (Ok (CError, None), w) /\
  c_extract_paths (Some i) preqs 0 w = (Ok (CError, None), w).
Proof. split; reflexivity. Qed.

(* ---- Rust ---- *)
Section Rust.
Variable path : string.

(* where each message's ranges start *)
Fixpoint starts (at0 : N) (ms : list (N * list interval)) : list N :=
  match ms with [] => [] | m :: r => at0 :: starts (at0 + lenN (snd m)) r end.

Lemma starts_length ms : forall a, length (starts a ms) = length ms.
Proof. induction ms as [|m ms IH]; intros a; cbn; [reflexivity|]. rewrite IH. reflexivity. Qed.

Lemma to_cxx_fold ms : forall d,
  fold_left fe_push ms d =
    mk_fe (fe_path d) (fe_offsets d ++ map fst ms) (fe_ranges d ++ concat (map snd ms))
          (fe_starts d ++ starts (lenN (fe_ranges d)) ms).
Proof.
  induction ms as [|m ms IH]; intros d.
  - cbn. rewrite !app_nil_r. destruct d; reflexivity.
  - cbn [fold_left]. rewrite IH. cbn [fe_push fe_path fe_offsets fe_ranges fe_starts map concat starts].
    rewrite <- !app_assoc. cbn [app]. repeat f_equal. unfold lenN. rewrite app_length. lia.
Qed.

Lemma to_cxx_spec ms :
  to_cxx path ms = mk_fe path (map fst ms) (concat (map snd ms)) (starts 0 ms).
Proof. unfold to_cxx. rewrite to_cxx_fold. reflexivity. Qed.

Lemma starts_nth pre m post : forall a,
  nth_error (starts a (pre ++ m :: post)) (length pre) = Some (a + lenN (concat (map snd pre)))%N.
Proof.
  induction pre as [|p pre IH]; intros a; cbn [app starts length nth_error map concat].
  - f_equal. cbn. lia.
  - rewrite IH. f_equal. unfold lenN. rewrite app_length. lia.
Qed.

Lemma mapM_seq_at {A} (l1 l2 l3 : list A) :
  mapM (fun j => at_ (l1 ++ l2 ++ l3) (N.of_nat j)) (seq (length l1) (length l2)) = Ok l2.
Proof.
  revert l1. induction l2 as [|x l2 IH]; intros l1; cbn [length seq mapM]; [reflexivity|].
  rewrite (at_nth _ _ x).
  2:{ rewrite nth_error_app2 by lia. rewrite Nat.sub_diag. reflexivity. }
  cbn [obind app]. specialize (IH (l1 ++ [x])). rewrite app_length in IH. cbn [length] in IH.
  rewrite <- app_assoc in IH. cbn [app] in IH.
  replace (length l1 + 1) with (S (length l1)) in IH by lia. rewrite IH. reflexivity.
Qed.

Lemma message_ranges_spec pre m post :
  (lenN (pre ++ m :: post) < two64)%N ->
  message_ranges (to_cxx path (pre ++ m :: post)) (N.of_nat (length pre)) = Ok (snd m).
Proof.
  intros H. rewrite to_cxx_spec. unfold message_ranges. cbn [fe_starts fe_ranges].
  rewrite (at_nth _ _ _ (starts_nth pre m post 0%N)). cbn [obind]. rewrite N.add_0_l.
  assert (B : (N.of_nat (length pre) + 1 < two64)%N \/ post = [] /\ (N.of_nat (length pre) + 1 = two64)%N).
  { left. clear -H. unfold lenN in H. rewrite app_length in H. cbn [length] in H. lia. }
  destruct B as [B|[_ B]]; [|exfalso; clear -B H; unfold lenN in H; rewrite app_length in H; cbn [length] in H; lia].
  rewrite add64_small by exact B.
  set (stop := if (N.of_nat (length pre) + 1 <? lenN (starts 0 (pre ++ m :: post)))%N then _ else _).
  assert (S1 : stop = Ok (lenN (concat (map snd (pre ++ [m]))))).
  { unfold stop. unfold lenN at 1. rewrite starts_length, app_length. cbn [length].
    destruct post as [|m' post].
    - assert (E : (N.of_nat (length pre) + 1 <? N.of_nat (length pre + 1))%N = false) by (apply N.ltb_ge; lia).
      cbn [length]. rewrite E. reflexivity.
    - assert (E : (N.of_nat (length pre) + 1 <? N.of_nat (length pre + S (length (m' :: post))))%N = true)
        by (apply N.ltb_lt; cbn [length]; lia).
      rewrite E. replace (N.of_nat (length pre) + 1)%N with (N.of_nat (length (pre ++ [m])))
        by (rewrite app_length; cbn [length]; lia).
      replace (pre ++ m :: m' :: post) with ((pre ++ [m]) ++ m' :: post) by (rewrite <- app_assoc; reflexivity).
      rewrite (at_nth _ _ _ (starts_nth (pre ++ [m]) m' post 0%N)). rewrite N.add_0_l. reflexivity. }
  rewrite S1. cbn [obind]. clear S1 stop.
  rewrite map_app, concat_app. cbn [map concat]. rewrite app_nil_r.
  assert (E : (lenN (concat (map snd pre) ++ snd m) <? lenN (concat (map snd pre)))%N = false).
  { apply N.ltb_ge. unfold lenN. rewrite app_length. lia. }
  rewrite E. unfold lenN. rewrite !Nat2N.id, app_length.
  replace (length (concat (map snd pre)) + length (snd m) - length (concat (map snd pre))) with (length (snd m)) by lia.
  rewrite map_app, concat_app. cbn [map concat]. apply mapM_seq_at.
Qed.

Lemma from_cxx_loop post : forall pre,
  (lenN (pre ++ post) < two64)%N ->
  mapM (fun i => message_ranges (to_cxx path (pre ++ post)) (N.of_nat i)) (seq (length pre) (length post))
    = Ok (map snd post).
Proof.
  induction post as [|m post IH]; intros pre H; cbn [length seq mapM map]; [reflexivity|].
  rewrite message_ranges_spec by exact H. cbn [obind].
  specialize (IH (pre ++ [m])). rewrite <- app_assoc in IH. cbn [app] in IH.
  rewrite app_length in IH. cbn [length] in IH. replace (length pre + 1) with (S (length pre)) in IH by lia.
  rewrite IH by exact H. reflexivity.
Qed.

Theorem cxx_round_trip (ms : list (N * list interval)) :
  (lenN ms < two64)%N ->
  from_cxx (to_cxx path ms) = Ok (path, map (fun m => s64 (fst m)) ms, map snd ms).
Proof.
  intros H. unfold from_cxx.
  replace (length (fe_starts (to_cxx path ms))) with (length ms).
  2:{ rewrite to_cxx_spec. cbn [fe_starts]. rewrite starts_length. reflexivity. }
  pose proof (from_cxx_loop ms [] H) as L. cbn [app length] in L. rewrite L. cbn [obind].
  rewrite to_cxx_spec. cbn [fe_path fe_offsets]. rewrite map_map. reflexivity.
Qed.

Theorem rust_file_extraction {F W} (i : impl F W) (ms : list (N * list interval)) :
  (lenN ms < two64)%N -> Forall (fun m => fst m < two63)%N ms ->
  bridge_extract_from_file i (to_cxx path ms)
    = gj_extract_direct i path (map (fun m => Z.of_N (fst m)) ms) (map snd ms).
Proof.
  intros H Ho. unfold bridge_extract_from_file. rewrite cxx_round_trip by exact H.
  replace (map (fun m => s64 (fst m)) ms) with (map (fun m => Z.of_N (fst m)) ms); [reflexivity|].
  apply map_ext_in. intros m Hm. rewrite Forall_forall in Ho. specialize (Ho m Hm).
  assert (two63 < two64)%N by reflexivity.
  unfold s64, w64. rewrite N.mod_small by lia.
  destruct (N.ltb_spec (fst m) two63); [reflexivity|lia].
Qed.
End Rust.
