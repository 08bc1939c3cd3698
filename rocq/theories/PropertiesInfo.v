(* Properties C16-C26: field descriptions (infos), their cache and the index files on disk. *)
From Verif Require Import Base ModelInfo ModelScan SpecScan ProofsScan ModelLRU SpecLRU ProofsLRU
     ModelStream SpecStream ProofsStream ModelIndex SpecIndex ProofsIndex ModelCache SpecCache
     ProofsCache ProofsCache2 ProofsTight.
Open Scope nat_scope.

(* C16.  For every file and every buffer size of at least 3 bytes (the code has 2^20). *)
Theorem C16_finds_every_header :
  forall (file : list N) (B : nat), 3 <= B -> (lenN file < two63)%N ->
    exists l, find_grib_offsets B file = Ok (map N.of_nat l) /\ lists_exactly (complete_start file) l.
Proof. exact find_all. Qed.
Print Assumptions C16_finds_every_header.

(* three headers, the second straddles the piece boundary at 6; the last is dropped *)
Example C16_example :
  find_grib_offsets 6 [71; 82; 73; 66; 0; 71; 82; 73; 66; 1; 1; 1; 1; 71; 82; 73; 66; 7]%N = Ok [0; 5]%N.
Proof. vm_compute. reflexivity. Qed.

(* with a smaller buffer headers are missed, so the bound on B is needed *)
Example C16_small_buffer :
  find_grib_offsets 2 [71; 82; 73; 66; 0; 71; 82; 73; 66; 1; 1; 1; 1; 71; 82; 73; 66; 7]%N <> Ok [0; 5]%N.
Proof. vm_compute. discriminate. Qed.

(* C17.  For every sequence of calls, keys, values and capacities of at least one. *)
Theorem C17_least_recently_used :
  forall (K V : Type) (K_eq_dec : forall a b : K, {a = b} + {a <> b}) (cap : nat) (ops : list (@lru_op K V)),
    1 <= cap ->
    exists c log, lru_run K_eq_dec (lru_new cap) [] ops = Ok (c, log) /\
      length (l_map c) <= cap /\
      (forall k, lru_exists K_eq_dec c k =
                 match lru_should K_eq_dec cap log k with Some _ => true | None => false end) /\
      (forall k, omap fst (lru_get K_eq_dec c k) =
                 match lru_should K_eq_dec cap log k with Some v => Ok v | None => Throw EBadValue end).
Proof. exact @lru_ok. Qed.
Print Assumptions C17_least_recently_used.

(* the log used above records exactly the calls made, in order *)
Theorem C17_log_is_the_calls :
  forall (K V : Type) (K_eq_dec : forall a b : K, {a = b} + {a <> b}) (ops : list (@lru_op K V)) c c' log',
    lru_run K_eq_dec c [] ops = Ok (c', log') -> map call_of (rev log') = ops.
Proof. exact (fun K V D ops c c' log' => log_calls D ops c [] c' log'). Qed.
Print Assumptions C17_log_is_the_calls.

(* capacity 2: reading key 1 saves it, so that key 2 is evicted by key 3 *)
Example C17_example :
  match lru_run Nat.eq_dec (lru_new 2) [] [OpPut 1 10; OpPut 2 20; OpGet 1; OpPut 3 30; OpPut 1 11] with
  | Ok (c, _) => lru_exists Nat.eq_dec c 2 = false /\ omap fst (lru_get Nat.eq_dec c 1) = Ok 11 /\
                 omap fst (lru_get Nat.eq_dec c 3) = Ok 30 /\ length (l_map c) = 2
  | _ => False
  end.
Proof. vm_compute. auto. Qed.

(* capacity 0 (cache.size: 0 in the configuration) is undefined behaviour on the first put *)
Theorem C17_refuted_capacity_zero :
  forall (K V : Type) (K_eq_dec : forall a b : K, {a = b} + {a <> b}) (k : K) (v : V),
    lru_put K_eq_dec (lru_new 0) k v = UB.
Proof. exact @capacity_zero. Qed.
Print Assumptions C17_refuted_capacity_zero.

(* C18.  Any history of lookups, inserts, scans, flushes and clears in one process, starting from index
   files that are true: every lookup is answered with the descriptions of exactly the messages asked for.
   Missing (hence _partial): needs that different files have different keys and index files. *)
Theorem C18_lookup_is_true_partial :
  forall (F : Type) (uniq : string -> string) (data : string -> Z -> outcome (info F))
         (data_offsets : string -> outcome (list Z)) (g : config) (P : string -> Prop)
         (d : @disk F) (cap : nat) (calls : list (@call F)) c' log,
    (forall p o, data p o <> UB) -> (forall p, data_offsets p <> UB) ->
    names_apart g P -> fresh_names uniq g P -> 1 <= cap -> true_disk data g P d ->
    Forall (true_call data P) calls ->
    c_calls uniq data data_offsets g (cache_new d cap) calls = (c', log) ->
    map fst log = calls /\ Forall (good_answer data g) log /\ true_disk data g P (c_disk c').
Proof. exact @history_from_start. Qed.
Print Assumptions C18_lookup_is_true_partial.

(* The names are apart when base names are distinct and do not end in a digit or minus sign
   (FDB data files end in ".data"). *)
Theorem C18_names_apart :
  forall (g : config) (P : string -> Prop),
    (forall p, P p -> ends_plain (base_name p) = true) ->
    (forall p q, P p -> P q -> base_name p = base_name q -> p = q) -> names_apart g P.
Proof. exact plain_names_apart. Qed.
Print Assumptions C18_names_apart.

(* Without that the property is false: whenever two messages have the same key, looking up the first makes
   a later lookup of the second return the description of the first. *)
Theorem C18_refuted_key_collision :
  forall (F : Type) (uniq : string -> string) (data : string -> Z -> outcome (info F))
         (data_offsets : string -> outcome (list Z)) (g : config) (d : @disk F) cap p o q o' i,
    1 <= cap -> cachekey p o = cachekey q o' -> d (cache_file_path g p) = None ->
    g_lazy g = true -> data p o = Ok i ->
    exists c' log, c_calls uniq data data_offsets g (cache_new d cap) [CGet p [o]; CGet q [o']] = (c', log) /\
      log = [(CGet p [o], Ok (AInfos [i])); (CGet q [o'], Ok (AInfos [i]))].
Proof. exact @key_collision. Qed.
Print Assumptions C18_refuted_key_collision.

(* keys do coincide: same base name in two directories; a name ending in a digit *)
Example C18_collisions :
  cachekey "/fdb/a/x.data" 0 = cachekey "/fdb/b/x.data" 0 /\
  cachekey "/fdb/f1" 23 = cachekey "/fdb/f12" 3 /\
  cache_file_path (mk_config false "/cache" true) "/fdb/a/x.data" = cache_file_path (mk_config false "/cache" true) "/fdb/b/x.data".
Proof. vm_compute. auto. Qed.

Example C18_hypotheses_hold :
  names_apart ex_cfg (fun p => In p ["/a/x.data"; "/a/y.data"]%string) /\
  fresh_names ex_uniq ex_cfg (fun p => In p ["/a/x.data"; "/a/y.data"]%string) /\
  true_disk ex_data ex_cfg (fun p => In p ["/a/x.data"; "/a/y.data"]%string) (fun _ => None).
Proof.
  split; [|split].
  - apply plain_names_apart.
    + intros p [<-|[<-|[]]]; reflexivity.
    + intros p q [<-|[<-|[]]] [<-|[<-|[]]]; intros E; reflexivity || discriminate.
  - intros p q [<-|[<-|[]]] [<-|[<-|[]]]; discriminate.
  - intros p _. exists []. split; [left; auto|constructor].
Qed.

Example C18_example :
  map snd (snd (c_calls ex_uniq ex_data ex_offsets ex_cfg (cache_new (fun _ => None) 1)
    [CGet "/a/x.data" [300; 0]%Z; CScanFile "/a/y.data" true; CGet "/a/y.data" [0]%Z; CGet "/a/x.data" [0; 0]%Z])) =
  [Ok (AInfos [sample 2%Z 6 "m1"; sample 1%Z 5 "m0"]); Ok (ACount 1); Ok (AInfos [sample 3%Z 7 "m2"]); Throw EAssert].
Proof. vm_compute. reflexivity. Qed.

(* C19.  One description per offset or an exception, for every state of cache and disk. *)
Theorem C19_one_info_per_offset :
  forall (F : Type) (uniq : string -> string) (data : string -> Z -> outcome (info F))
         (data_offsets : string -> outcome (list Z)) (g : config),
    (forall p o, data p o <> UB) ->
    forall c path offs c' r, 1 <= l_capacity (c_lru c) -> c_get data g c path offs = (c', r) ->
    r <> UB /\ forall vec, r = Ok vec -> length vec = length offs.
Proof. exact @c_get_shape. Qed.
Print Assumptions C19_one_info_per_offset.

(* with lazy extraction disabled and a readable index, exactly when it fails *)
Theorem C19_fails_exactly_when :
  forall (F : Type) (uniq : string -> string) (data : string -> Z -> outcome (info F))
         (data_offsets : string -> outcome (list Z)) (g : config),
    (forall p o, data p o <> UB) ->
    forall c path offs m c' r, g_lazy g = false -> 1 <= l_capacity (c_lru c) ->
    load_index (c_disk c) (cache_file_path g path) = Ok m -> c_get data g c path offs = (c', r) ->
    (exists e, r = Throw e) <-> (~ NoDup offs \/ exists o, In o offs /\ nowhere c path m o).
Proof. exact @c_get_fails_iff. Qed.
Print Assumptions C19_fails_exactly_when.

Example C19_example :
  let g := mk_config true "" false in
  let d := c_disk (fst (c_calls ex_uniq ex_data ex_offsets g (cache_new (fun _ => None) 4) [CScan "/a/x.data" [300]%Z])) in
  snd (c_get ex_data g (cache_new d 4) "/a/x.data" [300]%Z) = Ok [sample 2%Z 6 "m1"] /\
  snd (c_get ex_data g (cache_new d 4) "/a/x.data" [0; 300]%Z) = Throw EExtractionDisabled /\
  snd (c_get ex_data g (cache_new d 4) "/a/x.data" [300; 300]%Z) = Throw EAssert.
Proof. vm_compute. auto. Qed.

(* C20.  A saved index loads as the same map; several appended batches load as their union, the earliest
   record of an offset winning. *)
Theorem C20_save_load :
  forall (F : Type) (d : @disk F) l p b uniq,
    index_path p -> (uniq p ++ file_ext)%string <> p -> sorted_keys l ->
    exists ops, x_write uniq (mk_index p b (lift l)) = Ok ops /\ load_index (apply_ops d ops) p = Ok (lift l) /\
      (forall q, q <> p -> q <> (uniq p ++ file_ext)%string -> apply_ops d ops q = d q).
Proof. exact @save_load. Qed.
Print Assumptions C20_save_load.

Theorem C20_new_file_load :
  forall (F : Type) (d : @disk F) l p, index_path p -> sorted_keys l ->
    exists ops, to_new_file (lift l) p = Ok ops /\ load_index (apply_ops d ops) p = Ok (lift l) /\
                forall q, q <> p -> apply_ops d ops q = d q.
Proof. exact @new_file_loads. Qed.
Print Assumptions C20_new_file_load.

Theorem C20_appended_batches :
  forall (F : Type) (d : @disk F) p bs, index_path p -> d p = None ->
    exists d', append_batches d p bs = Ok d' /\ index_holds d' p (concat bs).
Proof. exact @batches_hold. Qed.
Print Assumptions C20_appended_batches.

(* An index object that holds records already, such as inserted ones, keeps them when the file is loaded; so does
   one that is merged with another. *)
Theorem C20_load_keeps :
  forall (F : Type) (d : @disk F) p (l l0 : list (Z * info F)), sorted_keys l -> complete_file d p l0 ->
    exists x, x_load d (mk_index p false (lift l)) = Ok x /\ x_path x = p /\ x_loaded x = true /\
      sorted_keys (x_map x) /\ forall o, x_find x o = mfind o (l ++ l0).
Proof. exact @load_keeps. Qed.
Print Assumptions C20_load_keeps.

Theorem C20_merge_keeps :
  forall (F : Type) (x other : @index F), sorted_keys (x_map x) ->
    x_path (x_merge x other) = x_path x /\ x_loaded (x_merge x other) = x_loaded x /\
    sorted_keys (x_map (x_merge x other)) /\
    forall o, mfind o (x_map (x_merge x other)) = mfind o (x_map x ++ x_map other).
Proof. exact @merge_keeps. Qed.
Print Assumptions C20_merge_keeps.

(* two batches with a common offset 7: the first record for it wins *)
Example C20_example :
  let p := "/d/x.gribjump"%string in
  match append_batches (fun _ => None) p [[(7, sample 1 5 "a")]; [(0, sample_ccsds 2 [1; 9]%N); (7, sample 3 6 "b")]]%Z with
  | Ok d => load_index d p = Ok [(0, Some (sample_ccsds 2 [1; 9]%N)); (7, Some (sample 1 5 "a"))]%Z
  | _ => False
  end.
Proof. vm_compute. reflexivity. Qed.

(* C21.  Process death at any point of a rewrite. *)
Theorem C21_rewrite_atomic :
  forall (F : Type) uniq (d : @disk F) p l b ops d',
    index_path p -> (uniq p ++ file_ext)%string <> p -> sorted_keys l ->
    x_write uniq (mk_index p b (lift l)) = Ok ops -> crashed d ops d' ->
    load_index d' p = load_index d p \/ load_index d' p = Ok (lift l).
Proof. exact @write_crash_load. Qed.
Print Assumptions C21_rewrite_atomic.

(* both outcomes occur: death before the rename, and after it *)
Example C21_example :
  let p := "/d/x.gribjump"%string in
  match x_write ex_uniq (mk_index p true (lift [(7, sample 1 5 "a")]%Z)) with
  | Ok (a :: b :: r) =>
      load_index (apply_ops (fun _ => None) [a; b]) p = Ok [] /\
      load_index (apply_ops (fun _ => None) (a :: b :: r)) p = Ok [(7, Some (sample 1 5 "a"))]%Z
  | _ => False
  end.
Proof. vm_compute. auto. Qed.

(* C22.  Process death at any point of an append: the file then loads without wrong records and with all
   old records, or it raises a stream error.  Missing: it should never be unreadable (see below). *)
Theorem C22_append_crash_partial :
  forall (F : Type) (d : @disk F) p l0 b ops d',
    index_path p -> complete_file d p l0 ->
    append_to_file d (lift b) p = Ok ops -> crashed d ops d' -> crash_result l0 b (load_index d' p).
Proof. exact @append_crash_load. Qed.
Print Assumptions C22_append_crash_partial.

(* For every existing index and batch there is a point of death after which the whole file is unreadable,
   and appending further batches does not repair it. *)
Theorem C22_refuted_unreadable :
  forall (F : Type) (d : @disk F) p l0 e b,
    index_path p -> d p <> None -> complete_file d p l0 ->
    exists ops d', append_to_file d (lift (e :: b)) p = Ok ops /\ crashed d ops d'
      /\ load_index d' p = Throw EStream /\
      forall e2 b2 ops2, append_to_file d' (lift (e2 :: b2)) p = Ok ops2 ->
        load_index (apply_ops d' ops2) p = Throw EStream.
Proof. exact @append_crash_unreadable. Qed.
Print Assumptions C22_refuted_unreadable.

(* And there is one after which scanning the message again dereferences a null pointer. *)
Theorem C22_refuted_null_record :
  forall (F : Type) uniq (data : string -> Z -> outcome (info F)) g (d : @disk F) p l0 e b,
    d (cache_file_path g p) <> None -> complete_file d (cache_file_path g p) l0 -> mfind (fst e) l0 = None ->
    data p (fst e) = Ok (snd e) ->
    exists ops d', append_to_file d (lift (e :: b)) (cache_file_path g p) = Ok ops /\ crashed d ops d' /\
      scan_offsets uniq data g d' p [fst e] = UB.
Proof. exact @crash_then_scan. Qed.
Print Assumptions C22_refuted_null_record.

(* the three kinds of outcome: complete first record, torn record, null record *)
Example C22_example :
  let p := "/d/x.gribjump"%string in
  match append_to_file (fun _ => None) (lift [(7, sample 1 5 "a")]%Z) p with
  | Ok ops => let d := apply_ops (fun _ => None) ops in
      match append_to_file d (lift [(9, sample 2 6 "b")]%Z) p with
      | Ok [OpAppend _ s] =>
          load_index (apply_op d (OpAppend p s)) p = Ok [(7, Some (sample 1 5 "a")); (9, Some (sample 2 6 "b"))]%Z /\
          load_index (apply_op d (OpAppend p (firstn 5 s))) p = Throw EStream /\
          load_index (apply_op d (OpAppend p (firstn 2 s))) p = Ok [(7, Some (sample 1 5 "a")); (9, None)]%Z
      | _ => False
      end
  | _ => False
  end.
Proof. vm_compute. auto. Qed.

(* C23.  Scanning at given offsets.  Missing (hence _partial): the count is exact only if the offsets are
   distinct. *)
Theorem C23_scan_partial :
  forall (F : Type) uniq (data : string -> Z -> outcome (info F)) g,
    (forall p, (uniq (cache_file_path g p) ++ file_ext)%string <> cache_file_path g p) ->
    forall d p offs l0 ops n, complete_file d (cache_file_path g p) l0 ->
    scan_offsets uniq data g d p offs = Ok (ops, n) ->
    exists m m', load_index d (cache_file_path g p) = Ok m /\ load_index (apply_ops d ops) (cache_file_path g p) = Ok m' /\
      completes data p offs m m' /\
      (lenN m' <= lenN m + n)%N /\ (NoDup offs -> lenN m' = lenN m + n)%N /\
      scan_offsets uniq data g (apply_ops d ops) p offs = Ok ([], 0%N) /\
      (exists l, complete_file (apply_ops d ops) (cache_file_path g p) l) /\
      (forall q, q <> cache_file_path g p -> q <> (uniq (cache_file_path g p) ++ file_ext)%string -> apply_ops d ops q = d q).
Proof. exact @scan_ok. Qed.
Print Assumptions C23_scan_partial.

(* it succeeds whenever the messages that are not indexed yet can be described *)
Theorem C23_scan_succeeds :
  forall (F : Type) uniq (data : string -> Z -> outcome (info F)) g,
    (forall p, (uniq (cache_file_path g p) ++ file_ext)%string <> cache_file_path g p) ->
    forall d p offs l0, complete_file d (cache_file_path g p) l0 ->
    (forall o, In o offs -> mfind o l0 = None -> exists i, data p o = Ok i) ->
    exists ops n, scan_offsets uniq data g d p offs = Ok (ops, n).
Proof. exact @scan_succeeds. Qed.
Print Assumptions C23_scan_succeeds.

(* one new message listed k times is counted k times *)
Theorem C23_refuted_count :
  forall (F : Type) uniq (data : string -> Z -> outcome (info F)) g,
    (forall p, (uniq (cache_file_path g p) ++ file_ext)%string <> cache_file_path g p) ->
    forall d p o i k, complete_file d (cache_file_path g p) [] -> data p o = Ok i -> 1 <= k ->
    exists ops m', scan_offsets uniq data g d p (repeat o k) = Ok (ops, N.of_nat k) /\
      load_index (apply_ops d ops) (cache_file_path g p) = Ok m' /\ length m' = 1.
Proof. exact @scan_overcounts. Qed.
Print Assumptions C23_refuted_count.

Example C23_example :
  map snd (snd (c_calls ex_uniq ex_data ex_offsets ex_cfg (cache_new (fun _ => None) 1)
    [CScan "/a/x.data" [300]%Z; CScan "/a/x.data" [300; 0]%Z; CScan "/a/x.data" [300; 0]%Z; CScan "/a/x.data" [4]%Z;
     CScan "/a/y.data" [0; 0; 0]%Z])) =
  [Ok (ACount 1); Ok (ACount 1); Ok (ACount 0); Throw ELibrary; Ok (ACount 3)].
Proof. vm_compute. reflexivity. Qed.

(* C24.  What a scan with merge off leaves: the old records first, then the new ones; so it regenerates
   the index only if there was none. *)
Theorem C24_regenerates_partial :
  forall (F : Type) uniq (data : string -> Z -> outcome (info F)) g,
    (forall p, (uniq (cache_file_path g p) ++ file_ext)%string <> cache_file_path g p) ->
    forall data_offsets d p l0 offs infos, complete_file d (cache_file_path g p) l0 -> data_offsets p = Ok offs ->
    Forall2 (fun o i => data p o = Ok i) offs infos ->
    exists ops, scan_file uniq data data_offsets g d p false = Ok (ops, lenN infos) /\
      index_holds (apply_ops d ops) (cache_file_path g p) (l0 ++ combine offs infos) /\
      (forall q, q <> cache_file_path g p -> q <> (uniq (cache_file_path g p) ++ file_ext)%string -> apply_ops d ops q = d q).
Proof. exact @scan_file_ok. Qed.
Print Assumptions C24_regenerates_partial.

(* a stale record at offset 300 (another description) and one at 900 (no message there) both survive *)
Theorem C24_refuted :
  let p := "/a/x.data"%string in
  let stale := [(300, sample 9%Z 99 "old"); (900, sample 9%Z 99 "old")]%Z in
  match append_to_file (fun _ => None) (lift stale) (cache_file_path ex_cfg p) with
  | Ok ops => let d := apply_ops (fun _ => None) ops in
      match scan_file ex_uniq ex_data ex_offsets ex_cfg d p false with
      | Ok (ops2, _) => load_index (apply_ops d ops2) (cache_file_path ex_cfg p) =
          Ok [(0, Some (sample 1%Z 5 "m0")); (300, Some (sample 9%Z 99 "old")); (900, Some (sample 9%Z 99 "old"))]%Z
      | _ => False
      end
  | _ => False
  end.
Proof. exact eq_refl. Qed.
Print Assumptions C24_refuted.

(* C25.  Any number of inserts for any files, then flush; a new process looks up: the record on disk before,
   else the first one inserted.  (flush appends, as the archive plugin calls it.) *)
Theorem C25_inserted_are_found_partial :
  forall (F : Type) uniq (data : string -> Z -> outcome (info F)) data_offsets g,
    (forall p o, data p o <> UB) ->
    forall d cap l c' log,
    c_calls uniq data data_offsets g (cache_new d cap) (insert_calls l ++ [CFlush true]) = (c', log) ->
    Forall (fun e => snd e = Ok AUnit) log /\
    forall p l0 offs cap2, complete_file d (cache_file_path g p) l0 -> NoDup offs -> 1 <= cap2 ->
      (forall o, In o offs -> exists i, mfind o (l0 ++ inserted_for g (cache_file_path g p) l) = Some i) ->
      exists c2 vec, c_get data g (cache_new (c_disk c') cap2) p offs = (c2, Ok vec) /\
        Forall2 (fun o i => mfind o (l0 ++ inserted_for g (cache_file_path g p) l) = Some i) offs vec.
Proof. exact @insert_flush_lookup. Qed.
Print Assumptions C25_inserted_are_found_partial.

(* Lookups and clears between the inserts change nothing about what is flushed. *)
Theorem C25_lookups_between :
  forall (F : Type) uniq (data : string -> Z -> outcome (info F)) data_offsets g l d cap a, Forall no_write l ->
    c_disk (fst (c_calls uniq data data_offsets g (cache_new d cap) (l ++ [CFlush a]))) =
    c_disk (fst (c_calls uniq data data_offsets g (cache_new d cap) (filter is_insert l ++ [CFlush a]))).
Proof. exact @reads_between. Qed.
Print Assumptions C25_lookups_between.

(* Missing above: flush(false), which replaces the index file by the inserted records only. *)
Theorem C25_refuted_rewrite :
  forall (F : Type) uniq (data : string -> Z -> outcome (info F)) data_offsets g d cap p l0 o i,
    (uniq (cache_file_path g p) ++ file_ext)%string <> cache_file_path g p ->
    complete_file d (cache_file_path g p) l0 ->
    exists c' log, c_calls uniq data data_offsets g (cache_new d cap) [CInsert p o i; CFlush false] = (c', log) /\
      index_holds (c_disk c') (cache_file_path g p) [(o, i)].
Proof. exact @insert_rewrite. Qed.
Print Assumptions C25_refuted_rewrite.

Example C25_example :
  let g := mk_config true "" false in
  let run c l := fst (c_calls ex_uniq ex_data ex_offsets g c l) in
  let d1 := c_disk (run (cache_new (fun _ => None) 4)
       [CInsert "/a/x.data" 300 (sample 2 6 "m1"); CInsert "/a/y.data" 0 (sample 3 7 "m2"); CFlush true])%Z in
  let d2 := c_disk (run (cache_new d1 4)
       [CInsert "/a/x.data" 300 (sample 8 8 "other"); CInsert "/a/x.data" 0 (sample 1 5 "m0"); CFlush true])%Z in
  snd (c_get ex_data g (cache_new d2 4) "/a/x.data" [0; 300]%Z) = Ok [sample 1%Z 5 "m0"; sample 2%Z 6 "m1"] /\
  snd (c_get ex_data g (cache_new d2 4) "/a/y.data" [0]%Z) = Ok [sample 3%Z 7 "m2"].
Proof. vm_compute. auto. Qed.

(* C26.  Descriptions of all three classes, one or many, whatever follows in the stream; a cut stream is
   refused. *)
Theorem C26_roundtrip :
  forall (F : Type) (i : info F) rest, r_info (w_info i ++ rest) = Ok (Some i, rest).
Proof. exact @info_roundtrip. Qed.
Print Assumptions C26_roundtrip.

Theorem C26_concatenation :
  forall (F : Type) (l : list (info F)) rest,
    r_times (length l) r_info (concat (map w_info l) ++ rest) = Ok (map Some l, rest).
Proof. exact @infos_roundtrip. Qed.
Print Assumptions C26_concatenation.

Theorem C26_truncated_refused :
  forall (F : Type) (i : info F) p q, w_info i = p ++ q -> p <> [] -> q <> [] ->
    r_info p = Throw EStream /\ r_info (p ++ [KTorn]) = Throw EStream.
Proof. exact @info_cut. Qed.
Print Assumptions C26_truncated_refused.

Example C26_example :
  r_info (w_info (sample_ccsds 2%Z [0; 77; 900]%N) ++ w_info (sample 1%Z 5 "a")) =
  Ok (Some (sample_ccsds 2%Z [0; 77; 900]%N), w_info (sample 1%Z 5 "a")).
Proof. vm_compute. reflexivity. Qed.
