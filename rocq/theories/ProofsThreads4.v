From Verif Require Import Base BaseLemmas ModelInfo ModelStream ModelIndex SpecIndex ModelLRU ModelCache SpecCache ProofsCache2
  ModelThreads SpecThreads ProofsThreads2 ProofsThreads3.

Local Open Scope nat_scope.

Lemma concurrent_lookup : forall (F : Type) uniq data data_offsets g P writer d cap ps, @sound_world F uniq data data_offsets g P writer d cap ps ->
  forall s t, reached uniq data data_offsets g d cap ps s -> h_lost (fst s) = false -> In t (snd s) -> Forall (lookup_right data g) (t_log t).
Proof. intros F uniq data data_offsets g P writer d cap ps (H1 & H2 & H3 & H4 & H5 & H6 & H7) s t. now apply (threads_lookup uniq data data_offsets g H1 H2 P H3 writer d H4 H5 cap H6 ps H7). Qed.

Lemma concurrent_not_emptied : forall (F : Type) uniq data data_offsets g P writer d cap ps, @sound_world F uniq data data_offsets g P writer d cap ps ->
  no_call is_scan ps \/ no_call is_flush ps ->
  forall s, reached uniq data data_offsets g d cap ps s -> h_lost (fst s) = false.
Proof.
  intros F uniq data data_offsets g P writer d cap ps (H1 & H2 & H3 & H4 & H5 & H6 & H7) [N|N] s R.
  - exact (threads_no_scan uniq data data_offsets g H1 H2 P H3 writer d H4 H5 cap H6 ps H7 s N R).
  - exact (proj1 (threads_no_flush uniq data data_offsets g H1 H2 P H3 writer d H4 H5 cap H6 ps H7 s (mk_thread 0 WIdle [] []) N R)).
Qed.

Lemma concurrent_no_flush : forall (F : Type) uniq data data_offsets g P writer d cap ps, @sound_world F uniq data data_offsets g P writer d cap ps ->
  no_call is_flush ps ->
  forall s t, reached uniq data data_offsets g d cap ps s -> In t (snd s) -> Forall (good_answer data g) (t_log t).
Proof.
  intros F uniq data data_offsets g P writer d cap ps (H1 & H2 & H3 & H4 & H5 & H6 & H7) N s t R.
  exact (proj2 (threads_no_flush uniq data data_offsets g H1 H2 P H3 writer d H4 H5 cap H6 ps H7 s t N R)).
Qed.

Lemma concurrent_kept : forall (F : Type) uniq data data_offsets g P writer d cap ps, @sound_world F uniq data data_offsets g P writer d cap ps ->
  archiving ps ->
  forall s t p o i a, reached uniq data data_offsets g d cap ps s -> In t (snd s) -> p_lock (h_proc (fst s) (writer p)) = false ->
    (In (CInsert p o i, a) (t_log t) -> staged_by g (fst s) (writer p) p o i \/ filed g (fst s) p o i) /\
    (forall l1 y l2, t_log t = l1 ++ (CFlush true, Ok y) :: l2 -> In (CInsert p o i, a) l1 -> filed g (fst s) p o i).
Proof.
  intros F uniq data data_offsets g P writer d cap ps (H1 & H2 & H3 & H4 & H5 & H6 & H7) A s t p o i a R Ht Lk. split.
  - intros H. exact (threads_kept uniq data data_offsets g H1 H2 P H3 writer d H4 H5 cap H6 ps H7 A s t p o i a R Ht Lk H).
  - intros l1 y l2 E H. exact (threads_flushed uniq data data_offsets g H1 H2 P H3 writer d H4 H5 cap H6 ps H7 A s t p o i a l1 y l2 R Ht Lk E H).
Qed.

(* ---- the example world ---- *)
Lemma us_length n : String.length (ex_us n) = n.
Proof. induction n; cbn; auto. Qed.

Lemma slen_app a b : String.length (a ++ b) = String.length a + String.length b.
Proof. induction a; cbn; auto. Qed.

Lemma ex_world ps : sound_programs ex_data ex_paths ex_writer ps ->
  sound_world ex_tickets ex_data ex_offsets ex_cfg ex_paths ex_writer ex_empty 4 ps.
Proof.
  intros S. split; [|split; [|split; [|split; [|split; [|split]]]]]; auto.
  - intros p o. unfold ex_data. destruct (String.eqb p "/a/x.data"); [|destruct (String.eqb p "/a/y.data")].
    + destruct (o =? 0)%Z; [discriminate|]. destruct (o =? 300)%Z; discriminate.
    + destruct (o =? 0)%Z; discriminate.
    + discriminate.
  - intros p. unfold ex_offsets. destruct (String.eqb p "/a/x.data"); discriminate.
  - apply plain_names_apart.
    + intros p [->| ->]; reflexivity.
    + intros p q [->| ->] [->| ->]; intros E; reflexivity || discriminate.
  - split; [|split].
    + intros n p q [->| ->] [->| ->]; discriminate.
    + intros n m p q E. apply (f_equal String.length) in E. unfold ex_tickets in E. rewrite !slen_app, !us_length in E. lia.
    + reflexivity.
  - intros p _. exists []. split; [left; auto|constructor].
Qed.

Ltac sound_now := repeat constructor; cbn; auto.

Lemma archive_get_sound : sound_programs ex_data ex_paths ex_writer ex_archive_get.
Proof. unfold sound_programs, ex_archive_get, ex_insert. sound_now. Qed.
Lemma archive_scan_sound : sound_programs ex_data ex_paths ex_writer ex_archive_scan.
Proof. unfold sound_programs, ex_archive_scan, ex_insert. sound_now. Qed.
Lemma archive_scan_get_sound : sound_programs ex_data ex_paths ex_writer ex_archive_scan_get.
Proof. unfold sound_programs, ex_archive_scan_get, ex_archive_scan, ex_insert. sound_now. Qed.
Lemma scan_scan_sound : sound_programs ex_data ex_paths ex_writer ex_scan_scan.
Proof. unfold sound_programs, ex_scan_scan. sound_now. Qed.

(* the index file has been created and is still empty *)
Lemma lookup_beside_flush : exists s, reached ex_tickets ex_data ex_offsets ex_cfg ex_empty 4 ex_archive_get s /\
  map (@t_log Z) (snd s) = [[(ex_insert, Ok AUnit)]; [(CGet "/a/x.data" [0%Z], Throw EStream)]].
Proof. eexists. split; [exists (steps 4 0 ++ steps 5 1); vm_compute; reflexivity|vm_compute; reflexivity]. Qed.

(* the scan reads a file that ends after an offset, takes it for a null record, and writes it *)
Lemma scan_beside_flush : exists s, reached ex_tickets ex_data ex_offsets ex_cfg ex_empty 4 ex_archive_scan s /\
  map (@t_log Z) (snd s) = [[(ex_insert, Ok AUnit)]; [(CScan "/a/x.data" [300%Z], UB)]].
Proof. eexists. split; [exists (steps 7 0 ++ steps 8 1); vm_compute; reflexivity|vm_compute; reflexivity]. Qed.

(* the flush empties the file that a scan has put in place since it looked *)
Lemma flush_empties : exists s, reached ex_tickets ex_data ex_offsets ex_cfg ex_empty 4 ex_archive_scan s /\
  map (@t_log Z) (snd s) = [[(ex_insert, Ok AUnit); (CFlush true, Ok AUnit)]; [(CScan "/a/x.data" [300%Z], Ok (ACount 1))]] /\
  h_lost (fst s) = true /\
  load_index (disk_of (fst s)) "/a/x.data.gribjump" = Ok [(0%Z, Some (sample 1%Z 5 "m0"))].
Proof. eexists. split; [exists (steps 3 0 ++ steps 28 1 ++ steps 26 0); vm_compute; reflexivity|]. split; [|split]; vm_compute; reflexivity. Qed.

(* the scan replaces a file to which a flush has added since it looked *)
Lemma scan_replaces : exists s, reached ex_tickets ex_data ex_offsets ex_cfg ex_empty 4 ex_archive_scan s /\
  map (@t_log Z) (snd s) = [[(ex_insert, Ok AUnit); (CFlush true, Ok AUnit)]; [(CScan "/a/x.data" [300%Z], Ok (ACount 1))]] /\
  load_index (disk_of (fst s)) "/a/x.data.gribjump" = Ok [(300%Z, Some (sample 2%Z 6 "m1"))].
Proof. eexists. split; [exists (steps 2 1 ++ steps 29 0 ++ steps 26 1); vm_compute; reflexivity|]. split; vm_compute; reflexivity. Qed.

Lemma scans_replace : exists s, reached ex_tickets ex_data ex_offsets ex_cfg ex_empty 4 ex_scan_scan s /\
  map (@t_log Z) (snd s) = [[(CScan "/a/x.data" [0%Z], Ok (ACount 1))]; [(CScan "/a/x.data" [300%Z], Ok (ACount 1))]] /\
  load_index (disk_of (fst s)) "/a/x.data.gribjump" = Ok [(0%Z, Some (sample 1%Z 5 "m0"))].
Proof. eexists. split; [exists (steps 2 0 ++ steps 28 1 ++ steps 26 0); vm_compute; reflexivity|]. split; vm_compute; reflexivity. Qed.

(* the file is emptied and written again while a lookup reads it: the lookup takes the offset of
   one record and the description of another *)
Lemma lookup_wrong : exists s, reached ex_tickets ex_data ex_offsets ex_cfg ex_empty 4 ex_archive_scan_get s /\
  In (CGet "/a/x.data" [300%Z], Ok (AInfos [sample 1%Z 5 "m0"])) (concat (map (@t_log Z) (snd s))) /\
  ex_data "/a/x.data" 300 = Ok (sample 2%Z 6 "m1").
Proof.
  eexists. split; [exists (steps 3 0 ++ steps 28 1 ++ steps 6 2 ++ steps 26 0 ++ steps 22 2); vm_compute; reflexivity|].
  split; vm_compute; auto 10.
Qed.
