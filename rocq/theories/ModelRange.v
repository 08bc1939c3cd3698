(* Model of src/gribjump/compression/Range.{h,cc} and of the multi-range decode
   in src/gribjump/compression/NumericCompressor.h. *)
From Verif Require Import Base.

(* Range.h: using Block = std::pair<size_t,size_t>  -- (offset, size) *)
Notation block := (N * N)%type.
Definition block_eqb (a b : block) : bool :=
  ((fst a =? fst b) && (snd a =? snd b))%N.

(* Range.h: using SubBlocks = std::vector<Block>; BlockBucket = pair<Block,SubBlocks> *)
Notation bucket := ((N * N) * list (N * N))%type.

(* Range.cc:17-20 begin_end; the addition is size_t addition and may wrap *)
Definition begin_of (b : block) : N := fst b.
Definition end_of (b : block) : N := add64 (fst b) (snd b).

(* std::lower_bound(first,last,value,comp) (used at Range.cc:54-58).  The standard
   requires the sequence to be partitioned with respect to comp(elem,value);
   otherwise the behaviour is undefined.  On a partitioned sequence the result is the
   first element for which comp is false.  The result is the sequence cut in two. *)
Fixpoint span_while {A} (p : A -> bool) (l : list A) : list A * list A :=
  match l with
  | nil => (nil, nil)
  | x :: r => if p x then let '(a, b) := span_while p r in (x :: a, b) else (nil, l)
  end.
Definition lower_bound {A} (p : A -> bool) (l : list A) : outcome (list A * list A) :=
  let '(a, b) := span_while p l in
  if existsb p b then UB else Ok (a, b).

(* Range.cc:64-78: merge with buckets before the insertion point.  [before] is the part
   of the vector before [it], in reverse order, so that its head is std::prev(it). *)
Fixpoint merge_before (sub_start sub_end : N) (merged : block) (subs : list block)
         (before : list bucket) : block * list block * list bucket :=
  match before with
  | nil => (merged, subs, nil)
  | (prev, prev_subs) :: rest =>
      if (end_of prev <? sub_start)%N then (merged, subs, before)
      else
        let first := N.min (fst merged) (begin_of prev) in
        let second := sub64 (N.max (end_of prev) sub_end) first in
        merge_before sub_start sub_end (first, second) (subs ++ prev_subs) rest
  end.

(* Range.cc:81-95: merge with buckets at and after the insertion point *)
Fixpoint merge_after (sub_end : N) (merged : block) (subs : list block)
         (after : list bucket) : block * list block * list bucket :=
  match after with
  | nil => (merged, subs, nil)
  | (next, next_subs) :: rest =>
      if (sub_end <? begin_of next)%N then (merged, subs, after)
      else
        let first := N.min (fst merged) (begin_of next) in
        let second := sub64 (N.max (end_of next) sub_end) first in
        merge_after sub_end (first, second) (subs ++ next_subs) rest
  end.

(* Range.cc:48-99 operator<<(BlockBuckets&, const Block&) *)
Definition bucket_insert (buckets : list bucket) (r : block) : outcome (list bucket) :=
  let sub_start := begin_of r in
  let sub_end := end_of r in
  let* (before, after) := lower_bound (fun b : bucket => (end_of (fst b) <? fst r)%N) buckets in
  let '(m1, s1, before') := merge_before sub_start sub_end r [r] (rev before) in
  let '(m2, s2, after') := merge_after sub_end m1 s1 after in
  Ok (rev before' ++ (m2, s2) :: after').

(* NumericCompressor.h:62-65: insert every range in turn *)
Fixpoint bucket_all (buckets : list bucket) (rs : list block) : outcome (list bucket) :=
  match rs with
  | nil => Ok buckets
  | r :: rest => let* b := bucket_insert buckets r in bucket_all b rest
  end.

Section Decode.
  Context {V : Type}.
  (* the virtual single-range decode(accessor, Block); an arbitrary function here *)
  Variable decode1 : block -> outcome (list V).

  (* std::unordered_map<Block, pair<Block, shared_ptr<Values>>>: newest assignment first,
     so that lookup returns the last value assigned with operator[] *)
  Definition ranges_map := list (block * (block * list V)).
  Definition rm_find (k : block) (m : ranges_map) : option (block * list V) :=
    match find (fun e => block_eqb (fst e) k) m with
    | Some e => Some (snd e)
    | None => None
    end.

  (* NumericCompressor.h:68-73 *)
  Fixpoint decode_buckets (bs : list bucket) (m : ranges_map) : outcome ranges_map :=
    match bs with
    | nil => Ok m
    | (br, subs) :: rest =>
        let* decoded := decode1 br in
        decode_buckets rest (fold_left (fun m s => (s, (br, decoded)) :: m) subs m)
    end.

  (* NumericCompressor.h:76-85; a missing map entry is a null shared_ptr dereference,
     a slice that leaves the decoded vector is an out-of-bounds read *)
  Definition take_range (m : ranges_map) (ur : block) : outcome (list V) :=
    match rm_find ur m with
    | None => UB
    | Some (br, decoded) =>
        let start := sub64 (fst ur) (fst br) in
        if (start + snd ur <=? lenN decoded)%N
        then Ok (slice decoded (N.to_nat start) (N.to_nat (snd ur)))
        else UB
    end.

  (* NumericCompressor.h:55-86 decode(accessor, ranges, result) *)
  Definition decode_ranges (rs : list block) : outcome (list (list V)) :=
    let* buckets := bucket_all [] rs in
    let* m := decode_buckets buckets [] in
    mapM (take_range m) rs.
End Decode.
