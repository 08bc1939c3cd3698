From Coq Require Import Lia.
From Verif Require Import Base BaseLemmas ModelStrings ModelLoad SpecLoad.
Local Open Scope string_scope.

(* ---- versions ---- *)
Lemma older_cons x y a b : older (x :: a) (y :: b) <-> (x < y)%N \/ x = y /\ older a b.
Proof.
  split.
  - intros ([|i] & L & E); [left; exact L|]. right. split; [exact (E 0%nat ltac:(lia))|]. exists i. split; [exact L|].
    intros j H. exact (E (S j) ltac:(lia)).
  - intros [L|(-> & i & L & E)].
    + exists 0%nat. split; [exact L|]. intros j H. lia.
    + exists (S i). split; [exact L|]. intros [|j] H; [reflexivity|]. apply E. lia.
Qed.
Lemma number_nil i : number [] i = 0%N.
Proof. now destruct i. Qed.
Lemma older_padded a b a' b' : (forall i, number a i = number a' i) -> (forall i, number b i = number b' i) -> older a b -> older a' b'.
Proof. intros A B (i & L & E). exists i. rewrite <- A, <- B. split; [exact L|]. intros j H. rewrite <- A, <- B. auto. Qed.
Lemma strip_number l : forall i, number (strip l) i = number l i.
Proof.
  induction l as [|x l IH]; intros i; [reflexivity|]. cbn [strip]. destruct (strip l) as [|y s].
  - unfold number in *. destruct (N.eqb_spec x 0) as [->|]; destruct i as [|i]; cbn; try reflexivity; rewrite <- (IH i); now destruct i.
  - destruct i as [|i]; [reflexivity|]. exact (IH i).
Qed.
(* the last number of a stripped release is not zero *)
Definition tidy (l : list N) : Prop := l <> [] -> number l (pred (length l)) <> 0%N.
Lemma tidy_tail x l : tidy (x :: l) -> tidy l.
Proof. intros T N. destruct l as [|y l]; [contradiction|]. exact (T ltac:(discriminate)). Qed.
Lemma strip_tidy l : tidy (strip l).
Proof.
  induction l as [|x l IH]; intros N; [contradiction|]. cbn [strip] in *. destruct (strip l) as [|y s] eqn:E.
  - destruct (N.eqb_spec x 0); [contradiction|]. exact n.
  - exact (IH ltac:(discriminate)).
Qed.
Lemma tidy_zero l : tidy l -> (forall i, number l i = 0%N) -> l = [].
Proof. intros T Z. destruct l as [|x l]; [reflexivity|]. destruct (T ltac:(discriminate)). apply Z. Qed.

Lemma tuple_older a : forall b, tidy a -> tidy b -> (tuple_compare a b = Lt <-> older a b).
Proof.
  induction a as [|x a IH]; intros [|y b] Ta Tb; cbn [tuple_compare].
  - split; [discriminate|]. intros (i & L & _). lia.
  - split; [|reflexivity]. intros _.
    assert (exists i, number (y :: b) i <> 0%N /\ forall j, (j < i)%nat -> number (y :: b) j = 0%N) as (i & N & Z).
    { specialize (Tb ltac:(discriminate)). revert Tb. generalize (pred (length (y :: b))) as k. clear.
      induction k as [k IH] using lt_wf_ind. intros N.
      destruct (Nat.eq_dec k 0) as [->|K]; [exists 0%nat; split; [exact N|lia]|].
      assert ((exists j, (j < k)%nat /\ number (y :: b) j <> 0%N) \/ forall j, (j < k)%nat -> number (y :: b) j = 0%N) as [(j & L & Nj)|A].
      { clear. induction k as [|k [(j & L & N)|A]]; [right; lia|left; exists j; split; [lia|exact N]|].
        destruct (N.eq_dec (number (y :: b) k) 0) as [E|E]; [right; intros j L; destruct (Nat.eq_dec j k) as [->|]; [exact E|apply A; lia]|left; exists k; split; [lia|exact E]]. }
      - exact (IH j L Nj).
      - exists k. auto. }
    exists i. rewrite number_nil. split; [lia|]. intros j H. rewrite number_nil, Z; auto.
  - split; [discriminate|]. intros (i & L & E). exfalso. rewrite number_nil in L. lia.
  - rewrite older_cons. destruct (N.compare_spec x y) as [->|L|L].
    + rewrite (IH b (tidy_tail _ _ Ta) (tidy_tail _ _ Tb)). split; [auto|]. intros [H|[_ H]]; [lia|exact H].
    + split; auto.
    + split; [discriminate|]. intros [H|[H _]]; lia.
Qed.

Lemma tuple_refl a : tuple_compare a a = Eq.
Proof. induction a as [|x a IH]; cbn; [reflexivity|]. now rewrite N.compare_refl. Qed.

Theorem final_older a b : final a -> final b -> (ver_lt a b = true <-> older (v_release a) (v_release b)).
Proof.
  intros (E1 & E2 & E3 & E4) (F1 & F2 & F3 & F4). unfold ver_lt, key. rewrite E1, E2, E3, E4, F1, F2, F3, F4. cbn [key_compare part_compare tuple_compare N.compare].
  pose proof (tuple_older _ _ (strip_tidy (v_release a)) (strip_tidy (v_release b))) as T.
  assert (older (strip (v_release a)) (strip (v_release b)) <-> older (v_release a) (v_release b)) as O.
  { split; apply older_padded; intros; rewrite strip_number; reflexivity. }
  rewrite <- O, <- T. destruct (tuple_compare _ _); split; intros H; try discriminate; reflexivity.
Qed.
Lemma unreadable parse lib own min : parse lib = None \/ parse own = None \/ parse min = None ->
  snd (check_versions parse lib own min) = Some InvalidVersion.
Proof.
  unfold check_versions. destruct (parse lib), (parse own), (parse min); cbn [snd]; intros [H|[H|H]]; try discriminate H; reflexivity.
Qed.
Lemma suffixes e r :
  let v := mk_ver e r in
  (forall a n d d', ver_lt (v None None (Some d)) (v (Some (a, n)) None d') = true) /\
  (forall a n p d, ver_lt (v (Some (a, n)) p d) (v None None None) = true) /\
  (forall a n a' n' p d p' d', (a < a' \/ a = a' /\ n < n')%N -> ver_lt (v (Some (a, n)) p d) (v (Some (a', n')) p' d') = true) /\
  (forall q n d d', ver_lt (v q None d') (v q (Some n) d) = true) /\
  (forall q n n' d d', (n < n')%N -> ver_lt (v q (Some n) d) (v q (Some n') d') = true) /\
  (forall q p d, ver_lt (v q p (Some d)) (v q p None) = true) /\
  (forall q p d d', (d < d')%N -> ver_lt (v q p (Some d)) (v q p (Some d')) = true).
Proof.
  cbn zeta. unfold ver_lt, key. cbn [v_epoch v_release v_pre v_post v_dev key_compare part_compare].
  assert (L : forall x y, (x < y)%N -> (x ?= y)%N = Lt) by (intros; apply N.compare_lt_iff; assumption).
  repeat split; intros; rewrite !tuple_refl;
    repeat match goal with
           | q : option (N * N) |- _ => destruct q as [[]|]
           | q : option N |- _ => destruct q
           end; cbn [part_compare key_compare tuple_compare]; rewrite ?N.compare_refl; try reflexivity;
    try (rewrite L by assumption; reflexivity).
  all: match goal with H : _ \/ _ |- _ => destruct H as [H|[-> H]]; rewrite ?N.compare_refl, (L _ _ H); reflexivity end.
Qed.
Lemma release_decides a b : (v_epoch a < v_epoch b)%N \/ v_epoch a = v_epoch b /\ older (v_release a) (v_release b) -> ver_lt a b = true.
Proof.
  unfold ver_lt, key. cbn [key_compare part_compare tuple_compare]. intros [H|[-> H]].
  - rewrite (proj2 (N.compare_lt_iff _ _) H). reflexivity.
  - rewrite N.compare_refl. assert (O : older (strip (v_release a)) (strip (v_release b))).
    { destruct H as (i & H & K). exists i. rewrite !strip_number. split; [exact H|]. intros j J. rewrite !strip_number. exact (K j J). }
    apply (tuple_older _ _ (strip_tidy _) (strip_tidy _)) in O. rewrite O. reflexivity.
Qed.

Lemma list_eqb_spec a : forall b, list_eqb a b = true <-> a = b.
Proof.
  induction a as [|x a IH]; intros [|y b]; cbn; split; try discriminate; try reflexivity.
  - intros H. apply andb_true_iff in H. destruct H as [E H]. apply N.eqb_eq in E. apply IH in H. now subst.
  - intros [= -> ->]. rewrite N.eqb_refl. now apply IH.
Qed.

(* what the check answers *)
Theorem checked parse lib own min a b c :
  parse lib = Some a -> parse own = Some b -> parse min = Some c ->
  (snd (check_versions parse lib own min) = if ver_lt a c then Some LibraryTooOld else None) /\
  ((3 <= length (v_release a))%nat -> (3 <= length (v_release b))%nat ->
   (fst (check_versions parse lib own min) = false <->
    forall i, (i < 3)%nat -> number (v_release a) i = number (v_release b) i)).
Proof.
  intros A B C. unfold check_versions. rewrite A, B, C. cbn [fst snd]. split; [reflexivity|].
  destruct (v_release a) as [|a0 [|a1 [|a2 ra]]]; cbn [length]; try lia.
  destruct (v_release b) as [|b0 [|b1 [|b2 rb]]]; cbn [length]; try lia. intros _ _.
  rewrite negb_false_iff, list_eqb_spec. cbn [firstn]. split.
  - intros [= -> -> ->] [|[|[|i]]] L; cbn; try reflexivity; lia.
  - intros H. pose proof (H 0%nat ltac:(lia)) as H0. pose proof (H 1%nat ltac:(lia)) as H1. pose proof (H 2%nat ltac:(lia)) as H2.
    cbn in H0, H1, H2. now subst.
Qed.

Theorem int_order M m p M' m' p' : (M < 400000)%N -> (M' < 400000)%N -> (m < 100)%N -> (p < 100)%N -> (m' < 100)%N -> (p' < 100)%N ->
  ((version_int M m p < version_int M' m' p')%N <-> before3 (M, m, p) (M', m', p')).
Proof.
  intros. unfold version_int, before3. change (2 ^ 32)%N with 4294967296%N. rewrite !N.mod_small by lia. lia.
Qed.

(* ---- importing ---- *)
Section Load.
Variable parse : string -> option ver.

(* what a failed attempt leaves *)
Definition tried_modules (own : string) : list (string * names) :=
  [(version_module, [("Path", Outside "pathlib" "Path"); ("np", Outside "numpy" ""); ("cffi", Outside "cffi" ""); ("os", Outside "os" "");
     ("findlibs", Outside "findlibs" ""); ("warnings", Outside "warnings" ""); ("importlib", Outside "importlib" "");
     ("__version__", Text own); ("__min_lib_version__", Text "0.10.0")])].
Definition exactly (h : history) (s : python) : Prop :=
  y_initialised s = h_initialised h /\ y_warnings s = h_warnings h /\
  match h_phase h with
  | NotLoaded => y_modules s = []
  | Tried own => y_modules s = tried_modules own
  | Loaded lib own => has_module s version_module /\ offers s package lib own /\ offers s main_module lib own
  end.

Lemma exactly_stands h s : exactly h s -> stands h s.
Proof.
  unfold exactly, stands, has_module. intros (I & W & P). split; [exact I|]. split; [exact W|].
  destruct (h_phase h); [exact P| |exact P]. rewrite P. vm_compute. split; intros H; now apply H.
Qed.
Lemma offers_has s m lib own : offers s m lib own -> has_module s m.
Proof. intros (_ & L & _). unfold lookup, has_module in *. destruct (assoc m (y_modules s)); discriminate. Qed.
Lemma import_has w m s : has_module s m -> has_module s package -> import parse w m s = (s, None).
Proof.
  unfold import, has_module. intros H P. cbn [load]. destruct (assoc m (y_modules s)); [|contradiction].
  unfold parent. destruct (String.eqb m package); [reflexivity|]. destruct (assoc package (y_modules s)); [reflexivity|contradiction].
Qed.

Lemma offers_by (s : python) m lib own :
  forallb (fun x => match lookup m x s with Some (Own a b) => String.eqb a main_module && String.eqb b x | _ => false end) interface = true ->
  lookup m "lib" s = Some (Library lib) -> lookup m "__version__" s = Some (Text own) -> offers s m lib own.
Proof.
  intros H L V. split; [|auto]. intros x I. rewrite forallb_forall in H. specialize (H x I). destruct (lookup m x s) as [[]|]; try discriminate.
  apply andb_true_iff in H. destruct H as [A B]. apply String.eqb_eq in A. apply String.eqb_eq in B. now subst.
Qed.


(* the code of the main module, around line 128 *)
Definition main_code : list stmt := Eval vm_compute in match code main_module with Some l => l | None => [] end.
Definition early : list stmt := Eval vm_compute in firstn 18 main_code.
Definition late : list stmt := Eval vm_compute in skipn 19 main_code.
Lemma main_split : code main_module = Some (early ++ MakeLibrary "lib" :: late)%list.
Proof. reflexivity. Qed.

Lemma exec_app w ld m l : forall l' s, exec parse w ld m (l ++ l') s =
  match exec parse w ld m l s with (s, None) => exec parse w ld m l' s | r => r end.
Proof.
  induction l as [|c l IH]; intros l' s; cbn [app exec]; [reflexivity|].
  destruct (exec_one parse w ld m c s) as [s' [e|]]; [reflexivity|]. apply IH.
Qed.

Section Attempt.
Variable w : world.
Variable k : nat.
Variables (i : bool) (n : nat).
Notation own0 := (w_own w).

(* the modules before and after the library is made *)
Definition before_library (mods : list (string * names)) (own : string) : list (string * names) :=
  y_modules (fst (exec (fun _ => None) (mk_world true true "" own) (load (fun _ => None) (mk_world true true "" own) 2) main_module early
                    (mk_python (put main_module [] (put package [] mods)) false 0))).
Definition early_new (own : string) := Eval vm_compute in before_library [] own.
Definition early_again (own : string) := Eval vm_compute in before_library (tried_modules own) own.
Definition after_library (mods : list (string * names)) (lib : string) : list (string * names) :=
  y_modules (fst (exec (fun _ => None) (mk_world true true "" "") (fun _ s => (s, None)) main_module late
                    (bind main_module "lib" (Library lib) (mk_python mods false 0)))).
Definition late_new (own lib : string) := Eval vm_compute in after_library (early_new own) lib.
Definition late_again (own lib : string) := Eval vm_compute in after_library (early_again own) lib.

Lemma early_new_run : exec parse w (load parse w (S (S k))) main_module early (mk_python (put main_module [] (put package [] [])) i n) = (mk_python (early_new own0) i n, None).
Proof. vm_compute. reflexivity. Qed.
Lemma early_again_run own : exec parse w (load parse w (S (S k))) main_module early (mk_python (put main_module [] (put package [] (tried_modules own))) i n) = (mk_python (early_again own) i n, None).
Proof. vm_compute. reflexivity. Qed.
Lemma late_new_run own lib : exec parse w (load parse w (S (S k))) main_module late (bind main_module "lib" (Library lib) (mk_python (early_new own) i n)) = (mk_python (late_new own lib) i n, None).
Proof. vm_compute. reflexivity. Qed.
Lemma late_again_run own lib : exec parse w (load parse w (S (S k))) main_module late (bind main_module "lib" (Library lib) (mk_python (early_again own) i n)) = (mk_python (late_again own lib) i n, None).
Proof. vm_compute. reflexivity. Qed.

(* making the library *)
Definition made (own : string) (mods : list (string * names)) : python * (error + value) :=
  if negb (w_found w) then (mk_python mods i n, inl LibraryNotFound)
  else if negb (i || w_main w) then (mk_python mods i n, inl LibraryFailed)
  else let (warned, r) := check_versions parse (w_lib w) own "0.10.0" in
       (mk_python mods true (if warned then S n else n), match r with Some e => inl e | None => inr (Library (w_lib w)) end).
Lemma made_new own : make_library parse w main_module (mk_python (early_new own) i n) = made own (early_new own).
Proof. unfold make_library, made. cbn [y_initialised y_modules y_warnings]. destruct (w_found w); [|reflexivity]. destruct i, (w_main w); reflexivity. Qed.
Lemma made_again own : make_library parse w main_module (mk_python (early_again own) i n) = made own (early_again own).
Proof. unfold make_library, made. cbn [y_initialised y_modules y_warnings]. destruct (w_found w); [|reflexivity]. destruct i, (w_main w); reflexivity. Qed.
End Attempt.

Lemma load_present w k m s : has_module s m -> load parse w (S k) m s = (s, None).
Proof. unfold has_module. cbn [load]. destruct (assoc m (y_modules s)); [reflexivity|contradiction]. Qed.

Lemma load_step w f m s p l : assoc m (y_modules s) = None -> parent m = Some p -> has_module s p -> code m = Some l ->
  load parse w (S (S f)) m s =
  match exec parse w (load parse w (S f)) m l (with_modules (put m []) s) with
  | (s, Some e) => (with_modules (drop m) s, Some e)
  | (s, None) => (bind p (submodule m) (Sub m) s, None)
  end.
Proof.
  intros A P H C. transitivity (match load parse w (S f) p s with
    | (s, Some e) => (s, Some e)
    | (s, None) => match assoc m (y_modules s), code m with
        | Some _, _ => (s, None) | None, None => (s, Some NoSuchModule)
        | None, Some l => match exec parse w (load parse w (S f)) m l (with_modules (put m []) s) with
            | (s, Some e) => (with_modules (drop m) s, Some e)
            | (s, None) => (match parent m with Some p => bind p (submodule m) (Sub m) s | None => s end, None) end end end).
  - remember (S f) as f'. cbn [load]. rewrite A, P. reflexivity.
  - rewrite (load_present w f p s H), A, C, P. reflexivity.
Qed.
Lemma load_top w f m s l : assoc m (y_modules s) = None -> parent m = None -> code m = Some l ->
  load parse w (S f) m s =
  match exec parse w (load parse w f) m l (with_modules (put m []) s) with
  | (s, Some e) => (with_modules (drop m) s, Some e)
  | (s, None) => (s, None)
  end.
Proof. intros A P C. cbn [load]. rewrite A, P, A, C. reflexivity. Qed.

(* the main module, loaded by the package *)
Definition tried_package (own : string) (again : bool) : list (string * names) :=
  Eval vm_compute in drop main_module (if again then early_again own else early_new own).
Definition loaded_main (own lib : string) (again : bool) : list (string * names) :=
  y_modules (bind package "pygribjump" (Sub main_module) (mk_python (if again then late_again own lib else late_new own lib) true 0)).
Definition result (w : world) (own : string) (i : bool) (n : nat) (bad : list (string * names)) (good : list (string * names)) : python * option error :=
  if negb (w_found w) then (mk_python bad i n, Some LibraryNotFound)
  else if negb (i || w_main w) then (mk_python bad i n, Some LibraryFailed)
  else let (warned, r) := check_versions parse (w_lib w) own "0.10.0" in
       let m := if warned then S n else n in
       match r with Some e => (mk_python bad true m, Some e) | None => (mk_python good true m, None) end.

Lemma main_new w k i n : load parse w (S (S (S k))) main_module (mk_python (put package [] []) i n) =
  result w (w_own w) i n (tried_package (w_own w) false) (loaded_main (w_own w) (w_lib w) false).
Proof.
  rewrite (load_step w (S k) main_module (mk_python (put package [] []) i n) package (early ++ MakeLibrary "lib" :: late)%list);
    [|vm_compute; reflexivity|reflexivity|vm_compute; discriminate|exact main_split].
  rewrite exec_app. unfold with_modules at 1. cbn [y_modules y_initialised y_warnings]. rewrite early_new_run. cbn [exec exec_one].
  rewrite made_new. unfold made, result.
  destruct (negb (w_found w)); [vm_compute; reflexivity|]. destruct (negb (i || w_main w)); [vm_compute; reflexivity|].
  destruct (check_versions parse (w_lib w) (w_own w) "0.10.0") as [warned [e|]]; [vm_compute; reflexivity|].
  rewrite late_new_run. vm_compute. reflexivity.
Qed.
Lemma main_again w k i n own : load parse w (S (S (S k))) main_module (mk_python (put package [] (tried_modules own)) i n) =
  result w own i n (tried_package own true) (loaded_main own (w_lib w) true).
Proof.
  rewrite (load_step w (S k) main_module (mk_python (put package [] (tried_modules own)) i n) package (early ++ MakeLibrary "lib" :: late)%list);
    [|vm_compute; reflexivity|reflexivity|vm_compute; discriminate|exact main_split].
  rewrite exec_app. unfold with_modules at 1. cbn [y_modules y_initialised y_warnings]. rewrite early_again_run. cbn [exec exec_one].
  rewrite made_again. unfold made, result.
  destruct (negb (w_found w)); [vm_compute; reflexivity|]. destruct (negb (i || w_main w)); [vm_compute; reflexivity|].
  destruct (check_versions parse (w_lib w) own "0.10.0") as [warned [e|]]; [vm_compute; reflexivity|].
  rewrite late_again_run. vm_compute. reflexivity.
Qed.

(* the package *)
Definition loaded_package (own lib : string) (again : bool) : list (string * names) :=
  y_modules (fst (exec (fun _ => None) (mk_world true true lib own) (fun _ s => (s, None)) package [FromStar main_module; FromNames version_module ["__version__"]]
                    (mk_python (loaded_main own lib again) true 0))).
Lemma package_new w k i n : load parse w (S (S (S (S k)))) package (mk_python [] i n) =
  result w (w_own w) i n (tried_modules (w_own w)) (loaded_package (w_own w) (w_lib w) false).
Proof.
  rewrite (load_top w (S (S (S k))) package (mk_python [] i n) [FromStar main_module; FromNames version_module ["__version__"]]);
    [|vm_compute; reflexivity|reflexivity|reflexivity].
  cbn [exec exec_one]. unfold with_modules at 1. cbn [y_modules y_initialised y_warnings].
  rewrite main_new. unfold result. destruct (negb (w_found w)); [vm_compute; reflexivity|]. destruct (negb (i || w_main w)); [vm_compute; reflexivity|].
  destruct (check_versions parse (w_lib w) (w_own w) "0.10.0") as [warned [e|]]; [vm_compute; reflexivity|].
  rewrite load_present by (vm_compute; discriminate). vm_compute. reflexivity.
Qed.
Lemma package_again w k i n own : load parse w (S (S (S (S k)))) package (mk_python (tried_modules own) i n) =
  result w own i n (tried_modules own) (loaded_package own (w_lib w) true).
Proof.
  rewrite (load_top w (S (S (S k))) package (mk_python (tried_modules own) i n) [FromStar main_module; FromNames version_module ["__version__"]]);
    [|vm_compute; reflexivity|reflexivity|reflexivity].
  cbn [exec exec_one]. unfold with_modules at 1. cbn [y_modules y_initialised y_warnings].
  rewrite main_again. unfold result. destruct (negb (w_found w)); [vm_compute; reflexivity|]. destruct (negb (i || w_main w)); [vm_compute; reflexivity|].
  destruct (check_versions parse (w_lib w) own "0.10.0") as [warned [e|]]; [vm_compute; reflexivity|].
  rewrite load_present by (vm_compute; discriminate). vm_compute. reflexivity.
Qed.

Lemma loaded_exactly own lib again i n : exactly (mk_history (Loaded lib own) i n) (mk_python (loaded_package own lib again) i n).
Proof.
  split; [reflexivity|]. split; [reflexivity|]. cbn [h_phase].
  destruct again; (split; [vm_compute; discriminate|split; apply offers_by; vm_compute; reflexivity]).
Qed.
Lemma loaded_present own lib again m i n : In m modules_of_package -> has_module (mk_python (loaded_package own lib again) i n) m.
Proof. intros [<-|[<-|[<-|[]]]]; destruct again; vm_compute; discriminate. Qed.

(* a module of the package, when the package itself is not loaded *)
Lemma import_from w m s own bad again :
  In m modules_of_package -> ~ has_module s package -> (m = package \/ has_module s m \/ ~ has_module s m) ->
  (forall k, load parse w (S (S (S (S k)))) package s = result w own (y_initialised s) (y_warnings s) bad (loaded_package own (w_lib w) again)) ->
  import parse w m s = result w own (y_initialised s) (y_warnings s) bad (loaded_package own (w_lib w) again).
Proof.
  intros I Np D L. unfold import. destruct (String.eqb_spec m package) as [->|Nm].
  - rewrite L. unfold result. repeat match goal with |- context [if ?b then _ else _] => destruct b; try reflexivity end.
    destruct (check_versions _ _ _ _) as [w' [e|]]; reflexivity.
  - unfold parent. rewrite (proj2 (String.eqb_neq m package) Nm). destruct D as [E|D]; [contradiction|].
    assert (has_module s m \/ ~ has_module s m) as [H|H] by tauto.
    + rewrite (load_present w 5 m s H). apply L.
    + assert (load parse w 6 m s = result w own (y_initialised s) (y_warnings s) bad (loaded_package own (w_lib w) again)) as E.
      { remember 5 as f eqn:Ef. cbn [load]. destruct (assoc m (y_modules s)) eqn:A; [destruct H; unfold has_module; congruence|].
        unfold parent. rewrite (proj2 (String.eqb_neq m package) Nm). rewrite Ef, (L 1). unfold result.
        destruct (negb (w_found w)); [reflexivity|]. destruct (negb (y_initialised s || w_main w)); [reflexivity|].
        destruct (check_versions parse (w_lib w) own "0.10.0") as [warned [e|]]; [reflexivity|].
        pose proof (loaded_present own (w_lib w) again m true (if warned then S (y_warnings s) else y_warnings s) I) as Pr.
        unfold has_module in Pr. cbn [y_modules] in Pr |- *. destruct (assoc m (loaded_package own (w_lib w) again)); [reflexivity|contradiction]. }
      rewrite E. unfold result. destruct (negb (w_found w)); [reflexivity|]. destruct (negb (y_initialised s || w_main w)); [reflexivity|].
      destruct (check_versions parse (w_lib w) own "0.10.0") as [warned [e|]]; [reflexivity|].
      rewrite load_present; [reflexivity|]. apply loaded_present. now left.
Qed.

Lemma import_attempt w m h s : In m modules_of_package -> exactly h s ->
  snd (import parse w m s) = snd (attempt parse w h) /\ exactly (fst (attempt parse w h)) (fst (import parse w m s)).
Proof.
  intros I (Ei & Ew & P). destruct s as [mods i n]. destruct h as [ph hi hn].
  cbn [y_initialised y_warnings y_modules h_phase h_initialised h_warnings] in *. subst i n.
  destruct ph as [|own|lib own].
  - subst mods. assert (import parse w m (mk_python [] hi hn) = result w (w_own w) hi hn (tried_modules (w_own w)) (loaded_package (w_own w) (w_lib w) false)) as ->.
    { apply (import_from w m (mk_python [] hi hn) (w_own w)); [exact I|intros X; now apply X|right; right; intros X; now apply X|].
      intros k. apply package_new. }
    unfold attempt, result. cbn [h_phase h_initialised h_warnings]. destruct (negb (w_found w)); [now repeat split|]. destruct (negb (hi || w_main w)); [now repeat split|].
    destruct (check_versions parse (w_lib w) (w_own w) "0.10.0") as [warned [e|]]; [now repeat split|].
    split; [reflexivity|apply loaded_exactly].
  - subst mods. assert (import parse w m (mk_python (tried_modules own) hi hn) = result w own hi hn (tried_modules own) (loaded_package own (w_lib w) true)) as ->.
    { apply (import_from w m (mk_python (tried_modules own) hi hn) own); [exact I|intros X; now apply X| |intros k; apply package_again].
      destruct I as [<-|[<-|[<-|[]]]]; [now left|right; right; intros X; now apply X|right; left; discriminate]. }
    unfold attempt, result. cbn [h_phase h_initialised h_warnings]. destruct (negb (w_found w)); [now repeat split|]. destruct (negb (hi || w_main w)); [now repeat split|].
    destruct (check_versions parse (w_lib w) own "0.10.0") as [warned [e|]]; [now repeat split|].
    split; [reflexivity|apply loaded_exactly].
  - unfold attempt. cbn [h_phase]. destruct P as (V & Op & Om). rewrite import_has.
    + split; [reflexivity|]. unfold exactly. cbn. auto.
    + destruct I as [<-|[<-|[<-|[]]]]; [eapply offers_has; eauto|eapply offers_has; eauto|exact V].
    + eapply offers_has; eauto.
Qed.

Lemma imports_attempts l : forall h s, Forall (fun x => In (snd x) modules_of_package) l -> exactly h s ->
  snd (imports parse l s) = snd (attempts parse l h) /\ exactly (fst (attempts parse l h)) (fst (imports parse l s)).
Proof.
  induction l as [|[w m] l IH]; intros h s K E; cbn [imports attempts]; [auto|].
  apply Forall_cons_iff in K. destruct K as [Km K]. destruct (import_attempt w m h s Km E) as [A B].
  destruct (attempt parse w h) as [h' e]. destruct (import parse w m s) as [s' e']. cbn [fst snd] in A, B. subst e'.
  destruct (IH h' s' K B) as [C D]. destruct (attempts parse l h') as [h2 es]. destruct (imports parse l s') as [s2 es']. cbn [fst snd] in *. now subst.
Qed.

Theorem importing l : Forall (fun x => In (snd x) modules_of_package) l ->
  snd (imports parse l fresh_python) = snd (attempts parse l start_of_program) /\
  stands (fst (attempts parse l start_of_program)) (fst (imports parse l fresh_python)).
Proof.
  intros K. destruct (imports_attempts l start_of_program fresh_python K) as [A B]; [now repeat split|]. split; [exact A|]. now apply exactly_stands.
Qed.

(* once loaded, PatchedLib cannot be made again: its global "version" is a function by then *)
Theorem patched_once l lib own w : Forall (fun x => In (snd x) modules_of_package) l ->
  h_phase (fst (attempts parse l start_of_program)) = Loaded lib own ->
  exists s' e, make_library parse w main_module (fst (imports parse l fresh_python)) = (s', inl e).
Proof.
  intros K H. destruct (importing l K) as [_ (_ & _ & S)]. rewrite H in S. destruct S as (_ & _ & (O & _)).
  specialize (O "version" ltac:(cbn; auto 20)). unfold make_library. destruct (negb (w_found w)); [eauto|].
  destruct (negb _); [eauto|]. unfold lookup in *. cbn [y_modules]. rewrite O. eauto.
Qed.
End Load.
