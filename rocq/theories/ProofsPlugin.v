(* The selection of the archive plugin. *)
From Coq Require Import Lia Permutation.
From Verif Require Import Base BaseLemmas ModelStrings ModelInfo ModelLRU ModelIndex ModelCache SpecIndex SpecCache SpecEngine ModelQueue
  ModelPlugin SpecPlugin ProofsStrings.
Local Open Scope nat_scope.

Lemma filter_all {A} (f : A -> bool) l : (forall x, In x l -> f x = true) -> filter f l = l.
Proof.
  induction l as [|x l IH]; intros H; cbn; [reflexivity|]. rewrite (H x) by now left. f_equal. apply IH. intros; apply H; now right.
Qed.

Section Select.
Variable regex : string -> option (string -> bool).
Notation parse_pairs := (parse_pairs regex).
Notation parse_config := (parse_config regex).
Notation matches := (matches regex).
Notation match_all := (match_all regex).
Notation satisfies := (satisfies regex).

Lemma condition_split c : plain (fst c) -> plain (snd c) -> split "="%char (condition_text c) = [fst c; snd c].
Proof.
  intros (N1 & E1 & _) (N2 & E2 & _). unfold condition_text, split.
  rewrite split_piece by exact E1. cbn [String.append]. cbn [split_]. rewrite Ascii.eqb_refl.
  destruct (String.eqb_spec (fst c) ""); [contradiction|].
  rewrite <- (sapp_nil_r (snd c)) at 1. rewrite split_piece by exact E2. cbn [String.append split_].
  destruct (String.eqb_spec (snd c) ""); [contradiction|reflexivity].
Qed.

Lemma select_split l : Forall (fun c => plain (fst c) /\ plain (snd c)) l ->
  split ","%char (select_text l) = map condition_text l.
Proof.
  intros H. unfold select_text. change ","%string with (String ","%char ""). rewrite split_concat.
  - apply filter_all. intros t I. apply in_map_iff in I as (c & <- & I).
    apply (proj1 (Forall_forall _ _) H) in I as [(N & _) _]. unfold nonempty, condition_text.
    destruct (fst c); [contradiction|reflexivity].
  - apply Forall_forall. intros t I. apply in_map_iff in I as (c & <- & I).
    apply (proj1 (Forall_forall _ _) H) in I as [(_ & _ & E1) (_ & _ & E2)].
    unfold condition_text. rewrite !has_char_app, E1, E2. reflexivity.
Qed.

Lemma parse_pairs_ok l : forall dict, NoDup (map fst (dict ++ l)) ->
  Forall (fun c => plain (fst c) /\ plain (snd c) /\ regex (snd c) <> None) l ->
  parse_pairs (map condition_text l) dict = (dict ++ l, Ok tt).
Proof.
  induction l as [|[k p] l IH]; intros dict ND H; cbn [map ModelPlugin.parse_pairs]; [now rewrite app_nil_r|].
  inversion H as [|? ? (P1 & P2 & R) H']; subst. rewrite condition_split by assumption. cbn [fst snd] in *.
  assert (Hk : sfind k dict = None).
  { apply sfind_none. rewrite map_app in ND. cbn [map fst] in ND. apply NoDup_remove_2 in ND.
    intros I. apply ND, in_or_app. now left. }
  rewrite Hk. destruct (regex p) eqn:E; [|congruence]. rewrite IH; [now rewrite <- app_assoc| |assumption].
  rewrite <- app_assoc. exact ND.
Qed.

(* a well written configuration is understood as the conditions in it *)
Theorem select_understood l : good_conditions regex l ->
  parse_config (select_text l) no_selection = (mk_selection true l, Ok tt).
Proof.
  intros (ND & H). unfold ModelPlugin.parse_config. cbn [no_selection sel_parsed sel_dict]. rewrite select_split.
  - now rewrite parse_pairs_ok.
  - eapply Forall_impl; [|exact H]. intros c (A & B & _). auto.
Qed.

(* the accepted configurations are those made of k=p pieces with distinct names and valid patterns *)
Lemma parse_pairs_inv toks : forall dict dict', NoDup (map fst dict) -> parse_pairs toks dict = (dict', Ok tt) ->
  exists l, dict' = dict ++ l /\ NoDup (map fst dict') /\
    Forall2 (fun t c => split "="%char t = [fst c; snd c] /\ regex (snd c) <> None) toks l.
Proof.
  induction toks as [|t toks IH]; intros dict dict' ND E; cbn [ModelPlugin.parse_pairs] in E.
  - injection E as <-. exists []. rewrite app_nil_r. auto.
  - destruct (split "="%char t) as [|k [|p [|? ?]]] eqn:Es; try discriminate.
    destruct (sfind k dict) eqn:Ef; [discriminate|]. destruct (regex p) eqn:Er; [|discriminate].
    apply IH in E as (l & -> & ND' & F2).
    + exists ((k, p) :: l). rewrite <- app_assoc in *. split; [reflexivity|]. split; [exact ND'|].
      constructor; [|exact F2]. split; [exact Es|]. cbn. congruence.
    + apply keys_snoc; assumption.
Qed.

Theorem select_accepted select dict : parse_config select no_selection = (mk_selection true dict, Ok tt) ->
  NoDup (map fst dict) /\
  Forall2 (fun t c => split "="%char t = [fst c; snd c] /\ regex (snd c) <> None) (split ","%char select) dict.
Proof.
  unfold ModelPlugin.parse_config. cbn [no_selection sel_parsed sel_dict].
  destruct (parse_pairs (split ","%char select) []) as [d r] eqn:E. intros [= <- ->].
  apply parse_pairs_inv in E as (l & -> & ND & H); [|constructor]. auto.
Qed.

Lemma match_all_iff dict key : match_all dict key = Ok true <-> satisfies dict key.
Proof.
  unfold SpecPlugin.satisfies. induction dict as [|[k p] dict IH]; cbn [ModelPlugin.match_all]; [split; auto|].
  destruct (sfind k key) as [v|] eqn:Ev.
  - destruct (regex p) as [f|] eqn:Ef.
    + destruct (f v) eqn:Em.
      * rewrite IH. split; intros H; [constructor; [|exact H]; cbn; eauto|now inversion H].
      * split; [discriminate|]. intros H. inversion H as [|? ? (v' & f' & A & B & C) _]; subst. cbn in *. congruence.
    + split; [discriminate|]. intros H. inversion H as [|? ? (v' & f' & A & B & C) _]; subst. cbn in *. congruence.
  - split; [discriminate|]. intros H. inversion H as [|? ? (v' & f' & A & B & C) _]; subst. cbn in *. congruence.
Qed.

(* selected iff every condition holds, for every selection that has a condition *)
Theorem matches_exact dict key : dict <> [] -> (matches dict key = Ok true <-> satisfies dict key).
Proof.
  intros N. unfold ModelPlugin.matches. destruct dict as [|c dict]; [contradiction|].
  rewrite match_all_iff. unfold SpecPlugin.satisfies. rewrite !Forall_forall.
  pose proof (ssort_perm (@fst string string) (c :: dict)) as P. fold (@in_key_order string (c :: dict)) in P.
  split; intros H x I; apply H; [eapply Permutation_in; [exact P|exact I]|
    eapply Permutation_in; [apply Permutation_sym; exact P|exact I]].
Qed.

(* with the configuration as text *)
Theorem selection_exact l key : good_conditions regex l -> l <> [] ->
  exists s, parse_config (select_text l) no_selection = (s, Ok tt) /\
    (matches (sel_dict s) key = Ok true <-> satisfies l key).
Proof.
  intros H N. exists (mk_selection true l). split; [now apply select_understood|]. now apply matches_exact.
Qed.

Lemma match_all_total dict key : Forall (fun c => regex (snd c) <> None) dict ->
  (forall c, In c dict -> sfind (fst c) key <> None) -> exists b, match_all dict key = Ok b.
Proof.
  induction dict as [|[k p] dict IH]; intros Hr Hk; cbn [ModelPlugin.match_all]; [eauto|].
  inversion Hr; subst. destruct (sfind k key) eqn:E; [|exfalso; exact (Hk (k, p) (or_introl eq_refl) E)].
  cbn in *. destruct (regex p); [|congruence]. destruct (b s); [|eauto]. apply IH; auto.
Qed.

(* a key that carries every configured keyword is selected or not, without an exception *)
Theorem matches_total dict key : Forall (fun c => regex (snd c) <> None) dict ->
  (forall c, In c dict -> sfind (fst c) key <> None) -> exists b, matches dict key = Ok b.
Proof.
  intros H1 H2. unfold ModelPlugin.matches. destruct dict as [|c dict]; [eauto|].
  pose proof (ssort_perm (@fst string string) (c :: dict)) as P. fold (@in_key_order string (c :: dict)) in P.
  apply match_all_total.
  - eapply Permutation_Forall; [exact P|exact H1].
  - intros x I. apply H2. eapply Permutation_in; [apply Permutation_sym; exact P|exact I].
Qed.

Lemma match_all_missing dict key : Forall (fun c => regex (snd c) <> None) dict ->
  Exists (fun c => sfind (fst c) key = None) dict ->
  (forall c v f, In c dict -> sfind (fst c) key = Some v -> regex (snd c) = Some f -> f v = true) ->
  match_all dict key = Throw ESeriousBug.
Proof.
  induction dict as [|[k p] dict IH]; intros Hr He Hm; [inversion He|]. cbn [ModelPlugin.match_all].
  inversion Hr; subst. destruct (sfind k key) as [v|] eqn:E; [|reflexivity].
  cbn in *. destruct (regex p) as [f|] eqn:Ef; [|congruence].
  rewrite (Hm (k, p) v f (or_introl eq_refl) E Ef). inversion He; subst; [cbn in *; congruence|].
  apply IH; auto. intros c v' f' I. apply Hm. now right.
Qed.

(* a key without a configured keyword, all of whose other conditions hold, makes the callback fail *)
Theorem matches_missing dict key : Forall (fun c => regex (snd c) <> None) dict ->
  Exists (fun c => sfind (fst c) key = None) dict ->
  (forall c v f, In c dict -> sfind (fst c) key = Some v -> regex (snd c) = Some f -> f v = true) ->
  matches dict key = Throw ESeriousBug.
Proof.
  intros H1 H2 H3. unfold ModelPlugin.matches. destruct dict as [|c dict]; [inversion H2|].
  pose proof (ssort_perm (@fst string string) (c :: dict)) as P. fold (@in_key_order string (c :: dict)) in P.
  apply match_all_missing.
  - eapply Permutation_Forall; [exact P|exact H1].
  - apply Exists_exists in H2 as (x & I & E). apply Exists_exists. exists x. split; [|exact E].
    eapply Permutation_in; [exact P|exact I].
  - intros x v f I. apply H3. eapply Permutation_in; [apply Permutation_sym; exact P|exact I].
Qed.

(* once parsed, never parsed again *)
Theorem parsed_once select s s' r : sel_parsed s = true -> parse_config select s = (s', r) -> s' = s /\ r = Ok tt.
Proof. unfold ModelPlugin.parse_config. intros ->. intros [= <- <-]. auto. Qed.

(* a refused configuration: the first FDB object fails, the second gets the conditions read so far *)
Theorem failed_parse_stays l bad rest k :
  good_conditions regex l -> has_char ","%char bad = false -> bad <> ""%string -> length (split "="%char bad) <> 2 ->
  Forall (fun p => has_char ","%char p = false) rest ->
  exists s, parse_config (String.concat "," (map condition_text l ++ bad :: rest)) no_selection = (s, Throw EUser) /\
    sel_dict s = l /\
    add_fdbs regex (String.concat "," (map condition_text l ++ bad :: rest)) (S k) no_selection
      = (s, Throw EUser :: repeat (Ok tt) k).
Proof.
  intros (ND & H) B1 B2 B3 Hr. exists (mk_selection true l).
  assert (E : parse_config (String.concat "," (map condition_text l ++ bad :: rest)) no_selection
              = (mk_selection true l, Throw EUser)).
  { unfold ModelPlugin.parse_config. cbn [no_selection sel_parsed sel_dict].
    change ","%string with (String ","%char ""). rewrite split_concat.
    - rewrite filter_app. cbn [filter]. unfold nonempty at 2. destruct (String.eqb_spec bad ""); [contradiction|]. cbn [negb].
      rewrite filter_all.
      2:{ intros t I. apply in_map_iff in I as (c & <- & I).
          apply (proj1 (Forall_forall _ _) H) in I as [(N & _) _]. unfold nonempty, condition_text.
          destruct (fst c); [contradiction|reflexivity]. }
      assert (G : forall l dict r, NoDup (map fst (dict ++ l)) ->
         Forall (fun c => plain (fst c) /\ plain (snd c) /\ regex (snd c) <> None) l ->
         parse_pairs (map condition_text l ++ bad :: r) dict = (dict ++ l, Throw EUser)).
      { clear -B3. induction l as [|[k p] l IH]; intros dict r ND H; cbn [map app ModelPlugin.parse_pairs].
        - rewrite app_nil_r. destruct (split "="%char bad) as [|a [|b [|c d]]]; try reflexivity. now elim B3.
        - inversion H as [|? ? (P1 & P2 & R) H']; subst. rewrite condition_split by assumption. cbn [fst snd] in *.
          assert (Hk : sfind k dict = None).
          { apply sfind_none. rewrite map_app in ND. cbn [map fst] in ND. apply NoDup_remove_2 in ND.
            intros I. apply ND, in_or_app. now left. }
          rewrite Hk. destruct (regex p) eqn:E; [|congruence]. rewrite IH; [now rewrite <- app_assoc| |assumption].
          rewrite <- app_assoc. exact ND. }
      rewrite G; auto.
    - apply Forall_app. split; [|constructor; auto]. apply Forall_forall. intros t I. apply in_map_iff in I as (c & <- & I).
      apply (proj1 (Forall_forall _ _) H) in I as [(_ & _ & E1) ((_ & _ & E2) & _)].
      unfold condition_text. rewrite !has_char_app, E1, E2. reflexivity. }
  split; [exact E|]. split; [reflexivity|]. cbn [add_fdbs]. unfold add_fdb. rewrite E.
  assert (G : forall k, add_fdbs regex (String.concat "," (map condition_text l ++ bad :: rest)) k (mk_selection true l)
              = (mk_selection true l, repeat (Ok tt) k)).
  { clear. induction k as [|k IH]; [reflexivity|]. cbn [add_fdbs repeat]. unfold add_fdb, ModelPlugin.parse_config. cbn [sel_parsed].
    rewrite IH. reflexivity. }
  rewrite G. reflexivity.
Qed.
End Select.

Theorem empty_selects_nothing (regex : string -> option (string -> bool)) (key : list (string * string)) :
  matches regex [] key = Ok false /\ satisfies regex [] key.
Proof. split; [reflexivity|constructor]. Qed.
