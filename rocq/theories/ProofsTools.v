From Coq Require Import Permutation.
From Verif Require Import Base BaseLemmas ModelStrings ModelIndex ModelEngine ModelCache ModelTools SpecEngine SpecTools ProofsStrings.

Local Open Scope nat_scope.

(* ---- digits ---- *)
Lemma digit_spec a : digit a = if is_digit a then Some (N_of_ascii a - 48)%N else None.
Proof. reflexivity. Qed.

Lemma starts_nodigit rest acc : starts_with_digit rest = false -> digits acc rest = acc.
Proof. destruct rest as [|a r]; cbn [digits starts_with_digit]; auto. destruct (digit a); [discriminate|auto]. Qed.

Lemma digits_value d rest : all_chars is_digit d = true -> starts_with_digit rest = false ->
  forall acc, digits acc (d ++ rest) = (acc * 10 ^ N.of_nat (String.length d) + numeral_value d)%N.
Proof.
  intros Hd Hr. induction d as [|a d IH]; intros acc; cbn [append all_chars] in *.
  - rewrite starts_nodigit by exact Hr. cbn. lia.
  - apply andb_true_iff in Hd as [Ha Hd]. cbn [digits]. rewrite digit_spec, Ha, IH by exact Hd.
    cbn [numeral_value String.length]. rewrite Nat2N.inj_succ, N.pow_succ_r'. lia.
Qed.

Lemma numeral_starts d n rest : numeral d n -> starts_with_digit (d ++ rest) = true.
Proof.
  intros (H1 & H2 & _). destruct d as [|a d]; [congruence|]. cbn [append starts_with_digit]. cbn [all_chars] in H2.
  apply andb_true_iff in H2 as [H2 _]. now rewrite digit_spec, H2.
Qed.

Lemma skip_spaces sp s : all_chars is_space sp = true -> skip_space (sp ++ s) = skip_space s.
Proof. induction sp as [|a sp IH]; cbn [append all_chars skip_space]; auto. intros H. apply andb_true_iff in H as [-> H]. auto. Qed.

Lemma skip_digit s : starts_with_digit s = true -> skip_space s = s.
Proof.
  destruct s as [|a r]; [discriminate|]. cbn [starts_with_digit skip_space]. unfold digit, is_space.
  destruct ((48 <=? N_of_ascii a) && (N_of_ascii a <=? 57))%N eqn:E; [|discriminate]. intros _.
  apply andb_true_iff in E as [E1 E2]. apply N.leb_le in E1, E2.
  destruct (N.eqb_spec (N_of_ascii a) 32); [lia|]. cbn [orb].
  destruct (N.leb_spec (N_of_ascii a) 13); [lia|]. now rewrite andb_false_r.
Qed.

Lemma digit_no_sign a : is_digit a = true -> Ascii.eqb a "-" = false /\ Ascii.eqb a "+" = false.
Proof.
  intros H. split; apply Ascii.eqb_neq; intros ->; discriminate.
Qed.

Lemma stoi_leads s n : leads s n -> (n <= int_max)%N -> stoi s = Ok (Z.of_N n).
Proof.
  intros (sp & plus & d & rest & -> & Hsp & Hp & Hn & Hr) Hmax.
  pose proof (numeral_starts d n rest Hn) as Hs. destruct Hn as (H1 & H2 & H3).
  unfold stoi. rewrite skip_spaces by exact Hsp.
  assert (E : (digits 0 (d ++ rest) = n)%N) by (rewrite digits_value by auto; lia).
  apply N.leb_le in Hmax.
  destruct Hp as [->| ->].
  - cbn [append]. rewrite skip_digit by exact Hs. destruct d as [|a d]; [congruence|]. cbn [append] in *.
    cbn [all_chars] in H2. apply andb_true_iff in H2 as [Ha _]. destruct (digit_no_sign a Ha) as [-> ->].
    rewrite Hs, E, Hmax. reflexivity.
  - change (skip_space ("+" ++ d ++ rest)) with (String "+" (d ++ rest)). cbn [append].
    change (Ascii.eqb "+" "-") with false. change (Ascii.eqb "+" "+") with true. cbv iota beta.
    rewrite Hs, E, Hmax. reflexivity.
Qed.

Lemma leads_of s : exists sp r, s = (sp ++ r)%string /\ all_chars is_space sp = true /\ skip_space s = r.
Proof.
  induction s as [|a s IH].
  - exists ""%string, ""%string. auto.
  - cbn [skip_space]. destruct (is_space a) eqn:E.
    + destruct IH as (sp & r & -> & H & H'). exists (String a sp), r. cbn [append all_chars]. rewrite E. auto.
    + exists ""%string, (String a s). auto.
Qed.

Lemma digits_of s : starts_with_digit s = true -> exists d rest, s = (d ++ rest)%string /\
  numeral d (digits 0 s) /\ starts_with_digit rest = false.
Proof.
  assert (G : forall s, exists d rest, s = (d ++ rest)%string /\ all_chars is_digit d = true /\ starts_with_digit rest = false).
  { clear s. induction s as [|a s IH].
    - exists ""%string, ""%string. auto.
    - destruct (is_digit a) eqn:E.
      + destruct IH as (d & rest & -> & H & H'). exists (String a d), rest. cbn [append all_chars]. rewrite E. auto.
      + exists ""%string, (String a s). split; auto. split; auto. cbn [starts_with_digit]. now rewrite digit_spec, E. }
  intros H. destruct (G s) as (d & rest & -> & Hd & Hr). exists d, rest. split; auto. split; auto.
  split; [|split; auto].
  - intros ->. cbn [append] in H. congruence.
  - rewrite digits_value by auto. lia.
Qed.

Lemma stoi_inv s z : has_char "-" s = false -> stoi s = Ok z -> exists n, z = Z.of_N n /\ leads s n /\ (n <= int_max)%N.
Proof.
  intros Hd. unfold stoi. destruct (leads_of s) as (sp & r & -> & Hsp & ->).
  assert (Hr : has_char "-" r = false).
  { clear -Hd. induction sp as [|a sp IH]; auto. cbn [append has_char] in Hd. apply orb_false_elim in Hd as [_ Hd]. auto. }
  assert (G : forall plus r', r = (plus ++ r')%string -> (plus = "" \/ plus = "+")%string ->
    (if starts_with_digit r' then if (digits 0 r' <=? int_max)%N then Ok (Z.of_N (digits 0 r')) else Throw (EMsg "stoi") else Throw (EMsg "stoi")) = Ok z ->
    exists n, z = Z.of_N n /\ leads (sp ++ r) n /\ (n <= int_max)%N).
  { intros plus r' -> Hp. destruct (starts_with_digit r') eqn:Es; [|discriminate].
    destruct (N.leb_spec (digits 0 r') int_max); [|discriminate]. intros [= <-]. eexists. split; [reflexivity|]. split; auto.
    destruct (digits_of r' Es) as (d & rest & -> & Hn & Hr'). exists sp, plus, d, rest. auto. }
  destruct r as [|a r]; [discriminate|]. cbn [has_char] in Hr. apply orb_false_elim in Hr as [Ha _]. rewrite Ha.
  destruct (Ascii.eqb_spec a "+") as [->|N].
  - intros H. apply (G "+"%string r); auto.
  - intros H. apply (G ""%string (String a r)); auto.
Qed.

(* ---- one range ---- *)
Lemma size_of_nat n : (n <= int_max)%N -> size_of_int (Z.of_N n) = n.
Proof.
  intros H. unfold size_of_int. rewrite Z.mod_small; [apply N2Z.id|]. unfold int_max in H. unfold two64. lia.
Qed.

Lemma parse_range_iff t r : parse_range t = Ok r <-> accepted_range t r.
Proof.
  unfold parse_range, accepted_range, int_range. split.
  - destruct (split "-" t) as [|x [|y [|z l]]] eqn:E; try discriminate.
    destruct (split_free "-"%char t x) as [Fx _]; [rewrite E; now left|].
    destruct (split_free "-"%char t y) as [Fy _]; [rewrite E; right; now left|].
    destruct (stoi x) as [zx| |] eqn:Ex; cbn [obind]; try discriminate.
    destruct (stoi y) as [zy| |] eqn:Ey; cbn [obind]; try discriminate. intros [= <-]. cbn [fst snd].
    destruct (stoi_inv x zx Fx Ex) as (a & -> & La & Ma). destruct (stoi_inv y zy Fy Ey) as (b & -> & Lb & Mb).
    exists x, y. rewrite !size_of_nat by auto. auto.
  - intros (x & y & -> & Lx & Ly & Mx & My). rewrite (stoi_leads x (fst r)), (stoi_leads y (snd r)) by auto. cbn [obind].
    rewrite !size_of_nat by auto. now destruct r.
Qed.

Lemma mapM_iff {A B} (f : A -> outcome B) (P : A -> B -> Prop) : (forall a b, f a = Ok b <-> P a b) ->
  forall l l', mapM f l = Ok l' <-> Forall2 P l l'.
Proof.
  intros H. induction l as [|a l IH]; intros l'; cbn [mapM].
  - split; [intros [= <-]; constructor|intros X; now inversion X].
  - split.
    + destruct (f a) as [b| |] eqn:E; cbn [obind]; try discriminate.
      destruct (mapM f l) as [bs| |] eqn:E'; cbn [obind]; try discriminate. intros [= <-].
      constructor; [now apply H|now apply IH].
    + intros X. inversion X as [|? b ? bs Pb Pl]; subst. apply H in Pb. apply IH in Pl. now rewrite Pb, Pl.
Qed.

(* ---- the documented format ---- *)
Lemma has_char_app c s t : has_char c (s ++ t) = has_char c s || has_char c t.
Proof. induction s as [|a s IH]; cbn [append has_char]; auto. now rewrite IH, orb_assoc. Qed.

Lemma chars_without f c s : f c = false -> all_chars f s = true -> has_char c s = false.
Proof.
  intros Hc. induction s as [|a s IH]; cbn [all_chars has_char]; auto. intros H. apply andb_true_iff in H as [Ha H].
  rewrite IH by exact H. rewrite orb_false_r. apply Ascii.eqb_neq. intros ->. congruence.
Qed.

Lemma blank_space sp : blank sp -> all_chars is_space sp = true.
Proof.
  unfold blank. induction sp as [|a sp IH]; cbn [all_chars]; auto. intros H. apply andb_true_iff in H as [Ha H]. rewrite IH by exact H.
  rewrite andb_true_r. unfold is_blank in Ha. unfold is_space. apply orb_true_iff in Ha as [Ha|Ha]; [apply orb_true_iff in Ha as [Ha|Ha]|].
  - now rewrite Ha.
  - apply N.eqb_eq in Ha. now rewrite Ha.
  - apply N.eqb_eq in Ha. now rewrite Ha.
Qed.

Lemma blank_no_digit sp : blank sp -> starts_with_digit sp = false.
Proof.
  destruct sp as [|a sp]; auto. unfold blank. cbn [all_chars starts_with_digit]. intros H. apply andb_true_iff in H as [H _].
  rewrite digit_spec. destruct (is_digit a) eqn:E; auto. unfold is_blank, is_digit in *.
  apply andb_true_iff in E as [E1 E2]. apply N.leb_le in E1.
  destruct (N.eqb_spec (N_of_ascii a) 32); [lia|]. destruct (N.eqb_spec (N_of_ascii a) 9); [lia|].
  destruct (N.eqb_spec (N_of_ascii a) 13); [lia|]. discriminate.
Qed.

Lemma numeral_nonempty a n : numeral a n -> a <> ""%string.
Proof. now intros [H _]. Qed.

Lemma range_text_ok t r : range_text t r -> int_range r ->
  accepted_range t r /\ has_char "," t = false /\ has_char newline t = false /\ nonempty t = true.
Proof.
  intros (sp & a & b & sp' & -> & Hs & Hs' & Ha & Hb) Hi.
  assert (Hc : forall c, is_blank c = false -> is_digit c = false -> Ascii.eqb "-" c = false ->
    has_char c (sp ++ a ++ "-" ++ b ++ sp') = false).
  { intros c C1 C2 C3. rewrite !has_char_app. cbn [has_char]. rewrite C3.
    rewrite (chars_without is_blank c sp C1 Hs), (chars_without is_blank c sp' C1 Hs'),
      (chars_without is_digit c a C2 (proj1 (proj2 Ha))), (chars_without is_digit c b C2 (proj1 (proj2 Hb))). reflexivity. }
  split; [|split; [|split]].
  - exists (sp ++ a)%string, (b ++ sp')%string. split; [|split; [|split; auto]].
    + assert (E : (sp ++ a ++ "-" ++ b ++ sp')%string = String.concat "-" [(sp ++ a)%string; (b ++ sp')%string]).
      { cbn [String.concat]. now rewrite !sapp_assoc. }
      rewrite E, split_concat.
      * cbn [filter]. unfold nonempty. destruct Ha as (Ha & _), Hb as (Hb & _).
        destruct (String.eqb_spec (sp ++ a) "") as [X|_]; [destruct sp, a; try discriminate; congruence|].
        destruct (String.eqb_spec (b ++ sp') "") as [X|_]; [destruct b, sp'; try discriminate; congruence|]. reflexivity.
      * constructor; [|constructor; [|constructor]]; rewrite has_char_app.
        -- rewrite (chars_without is_blank "-" sp eq_refl Hs), (chars_without is_digit "-" a eq_refl (proj1 (proj2 Ha))). reflexivity.
        -- rewrite (chars_without is_blank "-" sp' eq_refl Hs'), (chars_without is_digit "-" b eq_refl (proj1 (proj2 Hb))). reflexivity.
    + exists sp, ""%string, a, ""%string. split; [now rewrite (sapp_nil_r a)|]. split; [now apply blank_space|]. auto.
    + exists ""%string, ""%string, b, sp'. split; auto. split; auto. split; auto. split; auto. now apply blank_no_digit.
  - now apply Hc.
  - now apply Hc.
  - unfold nonempty. destruct sp, a; reflexivity.
Qed.

Lemma lines_piece p rest cur : has_char newline p = false -> lines_ (p ++ String newline rest) cur = (cur ++ p)%string :: lines_ rest "".
Proof.
  revert cur. induction p as [|a p IH]; intros cur H; cbn [append lines_].
  - rewrite Ascii.eqb_refl. now rewrite sapp_nil_r.
  - cbn [has_char] in H. apply orb_false_elim in H as [Ha H]. rewrite Ha, IH by exact H. now rewrite sapp_assoc.
Qed.

Lemma concat_nil_cons t ts : String.concat "" (t :: ts) = (t ++ String.concat "" ts)%string.
Proof. destruct ts; cbn [String.concat append]; [now rewrite sapp_nil_r|reflexivity]. Qed.

Lemma lines_concat ts : Forall (fun t => has_char newline t = false) ts ->
  lines (String.concat "" (map (fun t => t ++ String newline "")%string ts)) = ts.
Proof.
  unfold lines. induction 1 as [|t ts H _ IH]; [reflexivity|]. cbn [map]. rewrite concat_nil_cons, sapp_assoc. cbn [append].
  rewrite lines_piece by exact H. cbn [append]. now rewrite IH.
Qed.

Lemma ended_cons t ts : ended (t :: ts) = (t ++ String newline (ended ts))%string.
Proof. unfold ended. cbn [map]. rewrite concat_nil_cons, sapp_assoc. reflexivity. Qed.
Lemma ended_app a b : ended (a ++ b) = (ended a ++ ended b)%string.
Proof. induction a as [|t a IH]; [reflexivity|]. cbn [app]. rewrite !ended_cons, IH, sapp_assoc. reflexivity. Qed.

Lemma lines_split s : forall cur, has_char newline cur = false -> lines_of (cur ++ s) (lines_ s cur).
Proof.
  induction s as [|a s IH]; intros cur Hc; cbn [lines_].
  - rewrite sapp_nil_r. destruct (String.eqb_spec cur "") as [->|N].
    + split; [constructor|]. now left.
    + split; [repeat constructor; exact Hc|]. right. exists [], cur. auto.
  - destruct (Ascii.eqb_spec a newline) as [->|N].
    + destruct (IH ""%string eq_refl) as [Hf Hs]. cbn [append] in Hs. split; [now constructor|].
      destruct Hs as [E|(init & t & E & Ht & Es)].
      * left. rewrite ended_cons. congruence.
      * right. exists (cur :: init), t. rewrite E. split; [reflexivity|]. split; [exact Ht|]. rewrite ended_cons, Es, sapp_assoc. reflexivity.
    + change (String a s) with (String a "" ++ s)%string. rewrite <- sapp_assoc. apply IH. rewrite has_char_app, Hc. cbn [has_char].
      rewrite (proj2 (Ascii.eqb_neq a newline) N). reflexivity.
Qed.

Lemma lines_last t : has_char newline t = false -> forall cur, (cur ++ t)%string <> ""%string -> lines_ t cur = [(cur ++ t)%string].
Proof.
  induction t as [|a t IH]; intros H cur Hn; cbn [lines_].
  - rewrite sapp_nil_r in *. destruct (String.eqb_spec cur ""); [contradiction|reflexivity].
  - cbn [has_char] in H. apply orb_false_elim in H as [Ha H]. rewrite Ha, IH by (try exact H; destruct cur; discriminate).
    now rewrite sapp_assoc.
Qed.

Lemma lines_iff s ts : lines s = ts <-> lines_of s ts.
Proof.
  split; [intros <-; exact (lines_split s ""%string eq_refl)|]. intros [Hf [->|(init & t & -> & Ht & ->)]]; [now apply lines_concat|].
  apply Forall_app in Hf as [Hf Hl]. inversion Hl as [|? ? Hn _]; subst. clear Hl. unfold lines.
  induction Hf as [|u init Hu _ IH].
  - cbn [app ended map String.concat append]. now rewrite lines_last.
  - cbn [app]. rewrite ended_cons, sapp_assoc. cbn [append]. rewrite lines_piece by exact Hu. cbn [append]. now rewrite IH.
Qed.

Lemma parse_file_iff s ls : parse_ranges_file (Some s) = Ok ls <-> accepted_file s ls.
Proof.
  assert (X : parse_ranges_file (Some s) = Ok ls <-> Forall2 (fun t l => Forall2 accepted_range (split "," t) l) (lines s) ls).
  { unfold parse_ranges_file. apply mapM_iff. intros t l. unfold parse_line. apply mapM_iff. intros. apply parse_range_iff. }
  rewrite X. unfold accepted_file. split.
  - intro H. exists (lines s). split; [now apply lines_iff|exact H].
  - intros (ts & L & H). apply lines_iff in L. now subst.
Qed.

Lemma concat_no_char c ts : Ascii.eqb "," c = false -> Forall (fun t => has_char c t = false) ts -> has_char c (String.concat "," ts) = false.
Proof.
  intros Hc. induction 1 as [|t ts H Ht IH]; [reflexivity|]. destruct ts as [|u ts]; [exact H|].
  change (String.concat "," (t :: u :: ts)) with (t ++ "," ++ String.concat "," (u :: ts))%string.
  rewrite !has_char_app, H, IH. cbn [has_char]. now rewrite Hc.
Qed.

Lemma documented_format s ls : file_text s ls -> Forall (Forall int_range) ls -> parse_ranges_file (Some s) = Ok ls.
Proof.
  intros (ts & L & H) Hi. apply parse_file_iff. exists ts. split; [exact L|].
  assert (G : Forall2 (fun t l => has_char newline t = false /\ Forall2 accepted_range (split "," t) l) ts ls).
  { clear L. induction H as [|t l ts ls (ps & -> & Hp) _ IH]; constructor; inversion Hi as [|? ? Hl Hls]; subst; auto.
    assert (A : Forall2 accepted_range ps l /\ Forall (fun p => has_char "," p = false) ps /\ Forall (fun p => has_char newline p = false) ps /\
      filter nonempty ps = ps).
    { clear -Hp Hl. induction Hp as [|p r ps rs P _ IH]; [repeat split; constructor|]. inversion Hl as [|? ? Hr Hrs]; subst.
      destruct (IH Hrs) as (I1 & I2 & I3 & I4). destruct (range_text_ok p r P Hr) as (A1 & A2 & A3 & A4).
      cbn [filter]. rewrite A4, I4. repeat split; constructor; auto. }
    destruct A as (A1 & A2 & A3 & A4). split; [now apply concat_no_char|]. rewrite split_concat, A4 by exact A2. exact A1. }
  clear -G. induction G as [|t l ts ls [_ X] _ IH]; constructor; auto.
Qed.

(* ---- assigning ranges, labels ---- *)
Lemma assign_iff {R} (requests : list R) all ranges : assign_ranges requests all = Ok ranges <-> lines_fit requests all ranges.
Proof.
  unfold assign_ranges, lines_fit.
  assert (Rep : forall (A B : Type) (r : B) (l : list A), repeat r (length l) = map (fun _ => r) l).
  { intros A B r. induction l as [|x l IH]; cbn [length repeat map]; auto. now rewrite IH. }
  destruct all as [|r [|r' all]].
  - destruct requests as [|q qs]; cbn.
    + split; [intros [= <-]; right; auto|]. intros [(r & E & _)|[_ ->]]; [discriminate|reflexivity].
    + split; [discriminate|]. intros [(r & E & _)|[E _]]; discriminate.
  - destruct requests as [|q qs].
    + cbn. split; [discriminate|]. intros [(x & _ & E & _)|[E _]]; [congruence|discriminate].
    + cbn [length]. replace (S (length qs) - 1) with (length qs) by lia. cbn [length]. rewrite repeat_length, Nat.eqb_refl. cbn [assert_ obind].
      rewrite Rep. split.
      * intros [= <-]. left. exists r. split; auto. split; [discriminate|reflexivity].
      * intros [(x & [= <-] & _ & ->)|[E ->]]; [reflexivity|]. cbn in E. destruct qs; [reflexivity|discriminate].
  - destruct (Nat.eqb_spec (length requests) (length (r :: r' :: all))) as [E|N]; cbn [assert_ obind].
    + split; [intros [= <-]; right; auto|]. intros [(x & X & _)|[_ ->]]; [discriminate|reflexivity].
    + split; [discriminate|]. intros [(x & X & _)|[E _]]; [discriminate|]. congruence.
Qed.

Lemma fit_length {R} (requests : list R) all ranges : lines_fit requests all ranges -> length ranges = length requests.
Proof. intros [(r & _ & _ & ->)|[E ->]]; [apply map_length|exact E]. Qed.

Section Extract.
Context {R V : Type}.
Variable flatten : R -> list string.

Lemma poly_cons r requests x all : poly_request flatten (r :: requests) (x :: all) =
  map (fun s => (strip_verb s, x)) (flatten r) ++ poly_request flatten requests all.
Proof. reflexivity. Qed.

Lemma poly_length requests : forall all, length all = length requests ->
  length (poly_request flatten requests all) = list_sum (map (fun r => length (flatten r)) requests).
Proof.
  induction requests as [|r requests IH]; intros [|x all] E; try discriminate; [reflexivity|].
  rewrite poly_cons, app_length, map_length. cbn [map list_sum]. unfold list_sum in *. cbn [fold_right]. rewrite IH by (cbn in E; lia). reflexivity.
Qed.

Lemma print_at (requests : list R) all : forall (results : list (list (list V))) i lines,
  print_results requests all i results = Ok lines <->
  (length lines = length results /\ forall j v, nth_error results j = Some v ->
    exists l, nth_error lines j = Some l /\ print_result requests all (i + j) v = Ok l).
Proof.
  induction results as [|v results IH]; intros i ls; cbn [print_results].
  - split; [intros [= <-]|intros [E _]; destruct ls; [reflexivity|discriminate]]. split; auto. intros [|j] w; discriminate.
  - split.
    + destruct (print_result requests all i v) as [l| |] eqn:E; cbn [obind]; try discriminate.
      destruct (print_results requests all (S i) results) as [rest| |] eqn:E'; cbn [obind]; try discriminate. intros [= <-].
      apply IH in E' as [E1 E2]. split; [cbn [length]; now rewrite E1|]. intros [|j] w; cbn [nth_error].
      * intros [= <-]. exists l. split; auto. now rewrite Nat.add_0_r.
      * intros Hj. destruct (E2 j w Hj) as (l' & L1 & L2). exists l'. split; auto. now rewrite Nat.add_succ_r.
    + intros [E H]. destruct ls as [|l rest]; [discriminate|].
      destruct (H 0 v eq_refl) as (l0 & [= <-] & P). rewrite Nat.add_0_r in P. rewrite P. cbn [obind].
      assert (P' : print_results requests all (S i) results = Ok rest).
      { apply IH. split; [now injection E|]. intros j w Hj. destruct (H (S j) w Hj) as (l' & L1 & L2). exists l'. split; auto.
        now rewrite Nat.add_succ_r in L2. }
      now rewrite P'.
Qed.

(* one field per request: every result is printed under its own request and ranges *)
Lemma labels_right extract requests text all ranges results :
  (forall r, In r requests -> length (flatten r) = 1) ->
  parse_ranges_file text = Ok all -> lines_fit requests all ranges ->
  extract (poly_request flatten requests ranges) = Ok results -> @answers V (poly_request flatten requests ranges) results ->
  exists out, extract_tool flatten extract requests text = Ok out /\ length out = length requests /\
    forall i r rs, nth_error requests i = Some r -> nth_error ranges i = Some rs ->
      exists s v, flatten r = [s] /\ nth_error (poly_request flatten requests ranges) i = Some (strip_verb s, rs) /\
        nth_error results i = Some v /\ length v = length rs /\ nth_error out i = Some (r, combine rs v).
Proof.
  intros One Hp Hf He Ha. unfold extract_tool. rewrite Hp. cbn [obind]. rewrite (proj2 (assign_iff requests all ranges) Hf). cbn [obind].
  rewrite He. cbn [obind].
  pose proof (fit_length _ _ _ Hf) as Hl. clear Hp Hf He.
  assert (Poly : forall i r rs, nth_error requests i = Some r -> nth_error ranges i = Some rs ->
    exists s, flatten r = [s] /\ nth_error (poly_request flatten requests ranges) i = Some (strip_verb s, rs)).
  { clear Ha results. revert ranges Hl One. induction requests as [|q qs IH]; intros [|x xs] Hl One i r rs Hr Hs; try discriminate; try (destruct i; discriminate).
    rewrite poly_cons. pose proof (One q (or_introl eq_refl)) as O. destruct (flatten q) as [|s [|s' l]] eqn:Eq; try discriminate.
    destruct i as [|i].
    - injection Hr as <-. injection Hs as <-. exists s. split; auto.
    - destruct (IH xs (eq_add_S _ _ Hl) (fun r Hr => One r (or_intror Hr)) i r rs Hr Hs) as (s' & A & B). exists s'. split; auto. }
  assert (Len : length results = length requests).
  { rewrite <- (Forall2_length _ _ _ Ha), poly_length by exact Hl. clear -One.
    induction requests as [|q qs IH]; [reflexivity|]. cbn [map list_sum fold_right length]. unfold list_sum in *. cbn [fold_right].
    rewrite (One q) by now left. rewrite IH by (intros; apply One; now right). reflexivity. }
  assert (Val : forall i v, nth_error results i = Some v -> exists r rs, nth_error requests i = Some r /\ nth_error ranges i = Some rs /\ length v = length rs).
  { intros i v Hv. assert (Li : i < length results) by (apply nth_error_Some; congruence).
    destruct (nth_error requests i) as [r|] eqn:Er; [|apply nth_error_None in Er; lia].
    destruct (nth_error ranges i) as [rs|] eqn:Es; [|apply nth_error_None in Es; lia].
    exists r, rs. split; auto. split; auto. destruct (Poly i r rs Er Es) as (s & _ & Hq).
    clear -Ha Hq Hv. revert i Hq Hv. induction Ha as [|q w qs ws E _ IH]; intros [|i] Hq Hv; try discriminate.
    - injection Hq as ->. injection Hv as ->. cbn [snd] in E. congruence.
    - eauto. }
  assert (Pr : forall i v r rs, nth_error results i = Some v -> nth_error requests i = Some r -> nth_error ranges i = Some rs -> length v = length rs ->
    print_result requests ranges i v = Ok (r, combine rs v)).
  { intros i v r rs _ Hr Hs Lv. unfold print_result. rewrite Hr. destruct v as [|v0 v].
    - destruct rs; [reflexivity|discriminate].
    - rewrite Hs. rewrite (proj2 (Nat.leb_le _ _)); [reflexivity|rewrite Lv; lia]. }
  assert (exists out, print_results requests ranges 0 results = Ok out) as [out Ho].
  { clear Poly Ha Len. assert (G : forall (rs : list (list (list V))) i, (forall j v, nth_error rs j = Some v -> exists l, print_result requests ranges (i + j) v = Ok l) ->
      exists out, print_results requests ranges i rs = Ok out).
    { induction rs as [|v rs IH]; intros i H; cbn [print_results]; [eauto|].
      destruct (H 0 v eq_refl) as [l Hl']. rewrite Nat.add_0_r in Hl'. rewrite Hl'. cbn [obind].
      destruct (IH (S i)) as [o Ho].
      { intros j w Hj. destruct (H (S j) w Hj) as [l' P]. rewrite Nat.add_succ_r in P. eauto. }
      rewrite Ho. cbn [obind]. eauto. }
    apply G. intros j v Hv. destruct (Val j v Hv) as (r & rs & A & B & C). rewrite Nat.add_0_l. eauto. }
  exists out. split; auto. apply print_at in Ho as [Ho1 Ho2]. split; [congruence|].
  intros i r rs Hr Hs. destruct (Poly i r rs Hr Hs) as (s & Es & Eq).
  assert (Li : i < length results) by (rewrite Len; apply nth_error_Some; congruence).
  destruct (nth_error results i) as [v|] eqn:Ev; [|apply nth_error_None in Ev; lia].
  destruct (Val i v Ev) as (r' & rs' & A & B & C). rewrite Hr in A. injection A as <-. rewrite Hs in B. injection B as <-.
  destruct (Ho2 i v Ev) as (l & L1 & L2). rewrite Nat.add_0_l, (Pr i v r rs Ev Hr Hs C) in L2. injection L2 as <-.
  exists s, v. auto.
Qed.

(* more results than requests: the label of result number [length requests] is read beyond the end *)
Lemma labels_overrun extract requests text all ranges results :
  parse_ranges_file text = Ok all -> lines_fit requests all ranges ->
  extract (poly_request flatten requests ranges) = Ok results -> @answers V (poly_request flatten requests ranges) results ->
  (forall r, In r requests -> flatten r <> []) -> (exists r, In r requests /\ 2 <= length (flatten r)) ->
  forall out, extract_tool flatten extract requests text <> Ok out.
Proof.
  intros Hp Hf He Ha Ne (r & Hr & H2) out. unfold extract_tool. rewrite Hp. cbn [obind]. rewrite (proj2 (assign_iff requests all ranges) Hf). cbn [obind].
  rewrite He. cbn [obind]. intros Ho. apply print_at in Ho as [Ho1 Ho2].
  assert (Len : length requests < length results).
  { rewrite <- (Forall2_length _ _ _ Ha), poly_length by now apply (fit_length _ all).
    clear -Ne Hr H2. induction requests as [|q qs IH]; [destruct Hr|]. cbn [map length]. unfold list_sum in *. cbn [fold_right].
    assert (G : length qs <= fold_right plus 0 (map (fun r => length (flatten r)) qs)).
    { assert (Ne' : forall r, In r qs -> flatten r <> []) by (intros; apply Ne; now right). clear -Ne'.
      induction qs as [|q qs IH]; [cbn; lia|]. cbn [map length fold_right]. specialize (IH (fun r Hr => Ne' r (or_intror Hr))).
      pose proof (Ne' q (or_introl eq_refl)). destruct (flatten q); [congruence|]. cbn [length]. lia. }
    destruct Hr as [<-|Hr]; [lia|]. specialize (IH (fun r Hr => Ne r (or_intror Hr)) Hr).
    pose proof (Ne q (or_introl eq_refl)). destruct (flatten q); [congruence|]. cbn [length]. lia. }
  destruct (nth_error results (length requests)) as [v|] eqn:Ev; [|apply nth_error_None in Ev; lia].
  destruct (Ho2 _ _ Ev) as (l & _ & P). rewrite Nat.add_0_l in P. unfold print_result in P.
  rewrite (proj2 (nth_error_None requests (length requests))) in P by lia. discriminate.
Qed.

(* ---- gribjump-validate ---- *)
Variable veq : V -> V -> bool.
Lemma compare_values_iff a : forall b n, compare_values veq a b = Ok n <-> (Forall2 (fun x y => veq x y = true) a b /\ n = length a).
Proof.
  induction a as [|x a IH]; intros [|y b] n; cbn [compare_values length].
  - split; [intros [= <-]; auto|intros [_ ->]; auto].
  - split; [discriminate|intros [X _]; inversion X].
  - split; [discriminate|intros [X _]; inversion X].
  - destruct (veq x y) eqn:E; cbn [assert_ obind].
    + split.
      * destruct (compare_values veq a b) as [m| |] eqn:E'; cbn [obind]; try discriminate. intros [= <-]. apply IH in E' as [A ->]. auto.
      * intros [X ->]. inversion X; subst. now rewrite (proj2 (IH b (length a))).
    + split; [discriminate|]. intros [X _]. inversion X; subst. congruence.
Qed.

Lemma compare_lists_iff a : forall b n, compare_lists veq a b = Ok n <-> (same_points veq a b /\ n = length (concat a)).
Proof.
  unfold same_points. induction a as [|x a IH]; intros [|y b] n; cbn [compare_lists concat].
  - split; [intros [= <-]; auto|intros [_ ->]; auto].
  - split; [discriminate|intros [X _]; inversion X].
  - split; [discriminate|intros [X _]; inversion X].
  - split.
    + destruct (compare_values veq x y) as [k| |] eqn:E; cbn [obind]; try discriminate.
      destruct (compare_lists veq a b) as [m| |] eqn:E'; cbn [obind]; try discriminate. intros [= <-].
      apply compare_values_iff in E as [A ->]. apply IH in E' as [B ->]. rewrite app_length. auto.
    + intros [X ->]. inversion X; subst. rewrite (proj2 (compare_values_iff x y (length x))) by auto. cbn [obind].
      rewrite (proj2 (IH b (length (concat a)))) by auto. cbn [obind]. now rewrite app_length.
Qed.

Lemma compare_iff w v : (exists n, compare_values veq w v = Ok n) <-> Forall2 (fun x y => veq x y = true) w v.
Proof.
  split.
  - intros [n H]. now apply compare_values_iff in H as [H _].
  - intros H. exists (length w). now apply compare_values_iff.
Qed.

Lemma ec_range_points data r v :
  (exists w, ec_range data r = Ok w /\ Forall2 (fun x y => veq x y = true) w v) <-> points veq data r v.
Proof.
  unfold ec_range, points. destruct r as [b e]; cbn [fst snd].
  assert (F2 : forall w, Forall2 (fun x y => veq x y = true) w v <->
    (length v = length w /\ forall j x, nth_error v j = Some x -> exists y, nth_error w j = Some y /\ veq y x = true)).
  { clear. induction v as [|x v IH]; intros [|y w].
    - split; [|constructor]. intros _. split; auto. intros [|j] z; discriminate.
    - split; [intros X; inversion X|intros [X _]; discriminate].
    - split; [intros X; inversion X|intros [X _]; discriminate].
    - split.
      + intros X. inversion X; subst. match goal with H : Forall2 _ w v |- _ => apply IH in H as [E G] end.
        split; [cbn [length]; now rewrite E|]. intros [|j] z; cbn [nth_error]; [intros [= <-]; eauto|apply G].
      + intros [E G]. constructor.
        * destruct (G 0 x eq_refl) as (z & [= <-] & Z). exact Z.
        * apply IH. split; [now injection E|]. intros j z Hz. exact (G (S j) z Hz). }
  destruct (N.leb_spec e b).
  - split.
    + intros (w & [= <-] & X). inversion X; subst. split; [cbn; lia|]. intros [|j] x; discriminate.
    + intros [L _]. exists []. split; auto. destruct v; [constructor|]. unfold lenN in L. cbn [length] in L. lia.
  - destruct (N.leb_spec e (lenN data)).
    + split.
      * intros (w & [= <-] & X). apply F2 in X as [E G]. unfold lenN in *. rewrite slice_length in E by lia. split; [lia|].
        intros j x Hx. destruct (G j x Hx) as (y & Hy & V'). exists y. split; auto. rewrite nth_error_slice in Hy; auto.
        rewrite <- E. apply nth_error_Some. congruence.
      * intros [L G]. eexists. split; [reflexivity|]. apply F2. unfold lenN in *. rewrite slice_length by lia. split; [lia|].
        intros j x Hx. destruct (G j x Hx) as (y & Hy & V'). exists y. split; auto. rewrite nth_error_slice; auto.
        assert (j < length v) by (apply nth_error_Some; congruence). lia.
    + split; [intros (w & X & _); discriminate|]. intros [L G]. exfalso. unfold lenN in *.
      destruct (nth_error v (length v - 1)) as [x|] eqn:E; [|apply nth_error_None in E; lia].
      destruct (G _ _ E) as (y & Hy & _). assert (N.to_nat b + (length v - 1) < length data) by (apply nth_error_Some; congruence). lia.
Qed.

Lemma ec_ranges_points data rs : forall vals,
  (exists ws, mapM (ec_range data) rs = Ok ws /\ same_points veq ws vals) <-> Forall2 (points veq data) rs vals.
Proof.
  unfold same_points. induction rs as [|r rs IH]; intros vals; cbn [mapM].
  - split.
    + intros (ws & [= <-] & X). inversion X. constructor.
    + intros X. inversion X; subst. exists []. auto.
  - split.
    + destruct (ec_range data r) as [w| |] eqn:E; cbn [obind]; try (intros (ws & X & _); discriminate).
      destruct (mapM (ec_range data) rs) as [ws| |] eqn:E'; cbn [obind]; try (intros (ws & X & _); discriminate).
      intros (ws' & [= <-] & X). inversion X; subst. constructor; [apply ec_range_points; eauto|apply IH; eauto].
    + intros X. inversion X as [|? v ? vs P Ps]; subst. apply ec_range_points in P as (w & -> & W). apply IH in Ps as (ws & -> & Ws).
      cbn [obind]. eexists. split; [reflexivity|]. now constructor.
Qed.

Variable stored : R -> list (list V).

Lemma validate_loop_iff l : forall n, validate_loop stored veq l = Ok n <->
  (Forall (fun e => agrees stored veq (fst e) (snd e)) l /\ n = length (concat (concat (map snd l)))).
Proof.
  assert (Len : forall a b : list (list V), same_points veq a b -> length (concat a) = length (concat b)).
  { induction 1 as [|x y a b Hx _ IH]; [reflexivity|]. cbn [concat]. rewrite !app_length, IH. now rewrite (Forall2_length _ _ _ Hx). }
  induction l as [|[[r rs] gj] l IH]; intros n; cbn [validate_loop map concat snd].
  - split; [intros [= <-]; auto|intros [_ ->]; auto].
  - unfold ec_extract. split.
    + destruct (stored r) as [|data [|data' rest]] eqn:Es; cbn [mapM obind]; try discriminate.
      2:{ destruct (mapM (ec_range data) rs) as [w| |]; cbn [obind]; try discriminate.
          destruct (mapM (ec_range data') rs) as [w'| |]; cbn [obind]; try discriminate.
          destruct (mapM (fun d => mapM (ec_range d) rs) rest) as [ws| |]; cbn [obind]; discriminate. }
      destruct (mapM (ec_range data) rs) as [ws| |] eqn:E; cbn [obind]; try discriminate.
      destruct (compare_lists veq ws gj) as [k| |] eqn:Ec; cbn [obind]; try discriminate.
      destruct (validate_loop stored veq l) as [m| |] eqn:El; cbn [obind]; try discriminate. intros [= <-].
      apply compare_lists_iff in Ec as [S ->]. destruct (proj1 (IH m) eq_refl) as [A ->].
      split; [|rewrite concat_app, app_length; now rewrite (Len _ _ S)].
      constructor; auto. cbn [fst snd]. exists data. split; auto. cbn [snd]. apply ec_ranges_points. eauto.
    + intros [X ->]. inversion X as [|? ? (data & Es & D) Xs]; subst. cbn [fst snd] in Es, D. rewrite Es. cbn [mapM obind].
      apply ec_ranges_points in D as (ws & -> & S). cbn [obind]. rewrite (proj2 (compare_lists_iff ws gj _) (conj S eq_refl)). cbn [obind].
      rewrite (proj2 (IH _) (conj Xs eq_refl)). cbn [obind]. rewrite concat_app, app_length. now rewrite (Len _ _ S).
Qed.

Lemma validate_iff extract (as_string : R -> string) requests text n :
  validate_tool extract as_string stored veq requests text = Ok n <->
  exists all ranges results, parse_ranges_file text = Ok all /\ lines_fit requests all ranges /\
    extract (map (fun e => (as_string (fst e), snd e)) (combine requests ranges)) = Ok results /\
    Forall2 (agrees stored veq) (combine requests ranges) results /\ n = length (concat (concat results)).
Proof.
  unfold validate_tool. split.
  - destruct (parse_ranges_file text) as [all| |] eqn:Ep; cbn [obind]; try discriminate.
    destruct (assign_ranges requests all) as [ranges| |] eqn:Ea; cbn [obind]; try discriminate. apply assign_iff in Ea.
    destruct (extract _) as [results| |] eqn:Ex; cbn [obind]; try discriminate.
    destruct (Nat.eqb_spec (length results) (length requests)) as [El|]; cbn [assert_ obind]; [|discriminate].
    intros H. apply validate_loop_iff in H as [H ->]. exists all, ranges, results. split; auto. split; auto. split; auto.
    pose proof (fit_length _ _ _ Ea) as Lr.
    assert (Lc : length (combine requests ranges) = length results) by (rewrite combine_length; lia).
    clear -H Lc. revert Lc. generalize dependent results. generalize (combine requests ranges). intros l.
    induction l as [|q l IH]; intros [|v results] H Lc; try discriminate; [split; [constructor|reflexivity]|].
    cbn [combine] in H. inversion H as [|? ? A B]; subst. destruct (IH results B (eq_add_S _ _ Lc)) as [I1 I2].
    split; [constructor; auto|]. cbn [combine map snd concat]. rewrite !concat_app, !app_length. now rewrite I2.
  - intros (all & ranges & results & -> & Hf & He & Ha & ->). cbn [obind]. rewrite (proj2 (assign_iff requests all ranges) Hf). cbn [obind].
    rewrite He. cbn [obind]. pose proof (fit_length _ _ _ Hf) as Lr. pose proof (Forall2_length _ _ _ Ha) as Lc.
    rewrite combine_length in Lc. rewrite (proj2 (Nat.eqb_eq _ _)) by lia. cbn [assert_ obind]. apply validate_loop_iff.
    clear -Ha. induction Ha as [|q v l results A _ [I1 I2]]; [split; [constructor|reflexivity]|].
    cbn [combine map snd concat]. split; [constructor; auto|]. rewrite !concat_app, !app_length. now rewrite I2.
Qed.

(* a value that equals nothing, as NaN does, is never accepted *)
Lemma validate_missing extract (as_string : R -> string) requests text x :
  (forall y, veq y x = false) ->
  (forall q results, extract q = Ok results -> exists vals v, In vals results /\ In v vals /\ In x v) ->
  forall n, validate_tool extract as_string stored veq requests text <> Ok n.
Proof.
  intros Hx Hin n H. apply validate_iff in H as (all & ranges & rs & _ & _ & He & Ha & _).
  destruct (Hin _ _ He) as (vals & v & I1 & I2 & I3).
  assert (G : exists q, agrees stored veq q vals).
  { clear -Ha I1. induction Ha as [|q w l ws A _ IH]; [destruct I1|]. destruct I1 as [->|I1]; eauto. }
  destruct G as (q & data & _ & P).
  assert (G : exists r, points veq data r v).
  { clear -P I2. induction P as [|r w l ws A _ IH]; [destruct I2|]. destruct I2 as [->|I2]; eauto. }
  destruct G as (r & _ & G). apply In_nth_error in I3 as [j Hj]. destruct (G j x Hj) as (y & _ & E). now rewrite Hx in E.
Qed.
End Extract.

(* ---- gribjump-scan-files ---- *)
Section ScanFiles.
Variable exists_ : string -> bool.
Let indexed (f : string) : bool := exists_ (f ++ file_ext)%string.

Lemma sort_files_ok files : forall scan existing,
  sort_files exists_ files scan existing =
    (if forallb exists_ files then Ok (scan ++ filter (fun f => negb (indexed f)) files, existing ++ filter indexed files) else Throw EUser).
Proof.
  induction files as [|f files IH]; intros scan existing; cbn [sort_files forallb filter]; [now rewrite !app_nil_r|].
  destruct (exists_ f); cbn [negb andb]; auto. change (exists_ (f ++ file_ext)) with (indexed f).
  destruct (indexed f); cbn [negb]; rewrite IH; destruct (forallb exists_ files); auto; now rewrite <- !app_assoc.
Qed.

Lemma scan_files_spec skip dry files :
  scan_files exists_ skip dry files =
    (if forallb exists_ files then Ok (if dry then None else match to_scan exists_ skip files with [] => None | l => Some l end)
     else Throw EUser).
Proof.
  destruct files as [|f files]; [now destruct dry, skip|]. unfold scan_files. rewrite sort_files_ok.
  destruct (forallb exists_ (f :: files)); cbn [obind app]; auto. unfold to_scan.
  change (filter (fun f => negb (exists_ (f ++ file_ext))) (f :: files)) with (filter (fun f => negb (indexed f)) (f :: files)).
  change (filter (fun f => exists_ (f ++ file_ext)%string) (f :: files)) with (filter indexed (f :: files)).
  generalize (filter (fun f => negb (indexed f)) (f :: files)) (filter indexed (f :: files)). intros l l'.
  destruct skip; [rewrite app_nil_r; destruct l, dry; auto|]. destruct (l ++ l'), dry; auto.
Qed.

Lemma to_scan_all files : Permutation (to_scan exists_ false files) files.
Proof.
  unfold to_scan. induction files as [|f files IH]; [constructor|]. cbn [filter]. destruct (exists_ (f ++ file_ext)); cbn [negb].
  - rewrite <- Permutation_middle. now constructor.
  - cbn [app]. now constructor.
Qed.
End ScanFiles.

(* the directory of index files is not looked at *)
Lemma existing_elsewhere (g : ModelCache.config) exists_ f :
  g_shadow g = false -> exists_ f = true -> exists_ (cache_file_path g f) = true -> exists_ (f ++ file_ext)%string = false ->
  scan_files exists_ true false [f] = Ok (Some [f]).
Proof. intros _ Hf _ Hn. rewrite scan_files_spec. cbn [forallb]. rewrite Hf. cbn [andb]. unfold to_scan. cbn [filter]. rewrite Hn. reflexivity. Qed.

(* ---- the verb ---- *)
Lemma substring_all s : substring 0 (String.length s) s = s.
Proof. induction s as [|a s IH]; [reflexivity|]. cbn [String.length substring]. now rewrite IH. Qed.

Lemma strip_cases s : (exists r, s = ("retrieve," ++ r)%string /\ strip_verb s = r) \/ strip_verb s = s.
Proof.
  unfold strip_verb. destruct (prefix "retrieve," s) eqn:E; auto. left. apply prefix_app in E as [r ->]. exists r. split; auto.
  cbn [append String.length substring]. replace (S (S (S (S (S (S (S (S (S (String.length r))))))))) - 9) with (String.length r) by lia.
  apply substring_all.
Qed.

Lemma split_verb r : split "," ("retrieve," ++ r) = "retrieve"%string :: split "," r.
Proof. reflexivity. Qed.

Lemma triggers_verb r : triggers ("retrieve," ++ r) = triggers r.
Proof. reflexivity. Qed.

Lemma step_verb {F} ym (b : @build_state F) r :
  build_step ym b (mk_request (strip_verb (r_string r)) (r_ranges r) (r_hash r)) = build_step ym b r.
Proof.
  destruct r as [s ranges hash]. unfold build_step. cbn [r_string r_ranges r_hash].
  destruct (strip_cases s) as [(r & -> & ->)| ->]; [|reflexivity].
  rewrite triggers_verb. set (d := b_drop b || _).
  assert (E : canonical d ("retrieve," ++ r) = canonical d r).
  { unfold canonical, sanitized. rewrite split_verb. cbn [filter]. reflexivity. }
  assert (E' : forall kv, add_pairs d ("retrieve," ++ r) kv = add_pairs d r kv).
  { intros kv. unfold add_pairs. rewrite split_verb. reflexivity. }
  now rewrite E, E'.
Qed.

(* the engine finds the same fields with and without the verb *)
Lemma verb_ignored {F} ym l :
  @build_request_map F ym (map (fun r => mk_request (strip_verb (r_string r)) (r_ranges r) (r_hash r)) l) = build_request_map ym l.
Proof.
  unfold build_request_map. f_equal. generalize (@mk_build F false [] [] []).
  induction l as [|r l IH]; intros b; [reflexivity|]. cbn [map build_loop]. rewrite step_verb.
  destruct (build_step ym b r) as [b'| |]; cbn [obind]; auto.
Qed.

(* ---- witnesses ---- *)
Lemma malformed_accepted :
  parse_ranges_file (Some "10--20"%string) = Ok [[(10%N, 20%N)]] /\
  parse_ranges_file (Some "-10-20"%string) = Ok [[(10%N, 20%N)]] /\
  parse_ranges_file (Some "10-20x,,+3 4-5-"%string) = Ok [[(10%N, 20%N); (3%N, 5%N)]].
Proof. vm_compute. auto. Qed.

Lemma missing_file : parse_ranges_file None = Ok [].
Proof. reflexivity. Qed.

Lemma extract_options_refused n args : In n (documented TExtract) -> In ("--" ++ n)%string args -> args_accepted (registered TExtract) args = false.
Proof.
  intros H I. destruct (args_accepted _ _) eqn:E; [|reflexivity]. unfold args_accepted in E. rewrite forallb_forall in E. specialize (E _ I).
  destruct H as [<-|[<-|[]]]; discriminate E.
Qed.

Lemma other_options t args : t <> TExtract ->
  (forall a, In a args -> prefix "--" a = false \/ exists n, In n (documented t) /\ a = ("--" ++ n)%string) -> args_accepted (registered t) args = true.
Proof.
  intros Ht H. unfold args_accepted. apply forallb_forall. intros a I. destruct (H a I) as [P|(n & D & ->)].
  - unfold option_name. rewrite P. reflexivity.
  - clear H I. destruct t; [congruence| | |]; cbn [documented In] in D; repeat destruct D as [<-|D]; try reflexivity; destruct D.
Qed.
