(* Concrete counterexamples and corollaries for PropertiesEngine.v. *)
From Coq Require Import Permutation.
From Verif Require Import Base ModelRange ModelInfo ModelSimple ModelJumper ModelStrings ModelEngine SpecEngine
  ProofsEngine2.

Lemma idempotence_fails : exists s : string, single false (single false s) <> single false s.
Proof. exists "a=1,b=2,b=2"%string. vm_compute. discriminate. Qed.

Lemma catalogue_differs :
  fdbkey_to_str false [("level", "1"); ("level2", "2")]%string
    <> single false (request_string [("level", "1"); ("level2", "2")]%string) /\
  fdbkey_to_str true [("hdate", "20200101"); ("month", "1"); ("year", "2020")]%string
    <> single true (request_string [("hdate", "20200101"); ("month", "1"); ("year", "2020")]%string) /\
  fdbkey_to_str true [("date", "20200101"); ("year", "2020")]%string
    <> single true (request_string [("date", "20200101"); ("year", "2020")]%string).
Proof. repeat split; vm_compute; discriminate. Qed.

Lemma pieces_overwrite :
  exists (fresh : list N) (ps : list (list N)) (msg : list N),
    length fresh = length msg /\ concat ps = msg /\ read_loop fresh ps <> msg.
Proof.
  exists [255; 255]%N, [[1]; [2]]%N, [1; 2]%N. repeat split. vm_compute. discriminate.
Qed.

Lemma hash_checked : forall (F : Type) (w : world F) its path keys out,
  sound_world w -> extract_file w false its path keys = Ok out ->
  Permutation keys (map fst out) /\
  forall k, In k keys -> exists i off inf, sfind k its = Some i /\ u_offset (it_uri i) = Ok off /\
    w_true_info w path off inf /\ r_hash (it_request i) <> ""%string /\ r_hash (it_request i) = i_md5 inf.
Proof.
  intros F w its path keys out S H.
  destruct (file_task_inv (w_arith w) (w_aec w) (w_cache_get w) (w_files w) (w_sorter w) (w_build_info w)
    (w_pieces w) (w_fresh w) (w_list w) (w_true_info w) (proj1 S) (proj2 S) false its path keys out H) as [P Q].
  split; [exact P|]. intros k Hk.
  apply (Permutation_in _ P) in Hk. apply in_map_iff in Hk. destruct Hk as [[k' res] [E I]]. cbn in E. subst k'.
  destruct (Q k res I) as [i [Hi [bytes [off [inf [_ [Ho [Ht [Hh _]]]]]]]]].
  exists i, off, inf. destruct (Hh eq_refl). auto.
Qed.

Lemma mismatch_refused : forall (F : Type) (w : world F) its path keys k i,
  sound_world w -> In k keys -> sfind k its = Some i ->
  (forall off inf, u_offset (it_uri i) = Ok off -> w_true_info w path off inf ->
     r_hash (it_request i) = ""%string \/ r_hash (it_request i) <> i_md5 inf) ->
  forall out, extract_file w false its path keys <> Ok out.
Proof.
  intros F w its path keys k i S Hk Hi B out H.
  destruct (hash_checked _ w its path keys out S H) as [_ Q].
  destruct (Q k Hk) as [i' [off [inf [Hi' [Ho [Ht [N E]]]]]]].
  rewrite Hi in Hi'. injection Hi' as <-. destruct (B off inf Ho Ht) as [X|X]; auto.
Qed.
