(* Property C111: threads that share a Rust handle. *)
From Verif Require Import Base ModelStrings ModelJumper ModelEngine ModelApi ModelRust ModelShare SpecShare ProofsShare.
Local Open Scope nat_scope.

(* C111.  Whatever threads do with a handle, its clones, and the iterators, results and views they get - in the order any
   scheduler makes of it - nothing is used or freed that is gone, no two threads are inside one C++ handle, and nothing is
   written while it is read. *)
Theorem C111_safe :
  forall (F W : Type) flatten (im : impl F W) may w,
    defined_calls flatten im may w -> in_memory flatten im may w ->
    ~ rsteps flatten im may (start w) UB.
Proof. exact @share_safe. Qed.
Print Assumptions C111_safe.

(* the answers are those of the calls made one after another, in the order in which the library was called; each thread's
   calls are in the order in which it made them, and it gets the answers to its own calls, in order *)
Theorem C111_one_by_one :
  forall (F W : Type) flatten (im : impl F W) may w,
    defined_calls flatten im may w -> in_memory flatten im may w ->
    forall s, reached flatten im may w s ->
    one_by_one flatten im (calls_of s) w = (answers_of s, r_world s) /\
    forall t, mine t (r_asked s) = my_calls t s ++ not_made (r_phase s t) /\
              my_answers t s = mine t (r_got s) ++ not_returned (r_phase s t).
Proof. exact @share_order. Qed.
Print Assumptions C111_one_by_one.

(* the C++ handle is there as long as somebody holds it and no longer, in particular during a call; at most one thread is inside *)
Theorem C111_handle :
  forall (F W : Type) flatten (im : impl F W) may w,
    defined_calls flatten im may w -> in_memory flatten im may w ->
    forall s h o, reached flatten im may w s -> nth_error (r_objs s) h = Some o ->
    o_refs o = holders s h /\
    (o_alive o = true <-> exists j u, slot s j = Some (u, VHandle h)) /\
    (forall t, in_call s t h -> o_alive o = true) /\
    (forall t u, inside s t h -> inside s u h -> t = u).
Proof. exact @share_handles. Qed.
Print Assumptions C111_handle.

(* a call can always be finished: by at most five steps of the threads in calls, whether the one before fails or not; and when
   no call is going on nobody has the lock *)
Theorem C111_progress :
  forall (F W : Type) flatten (im : impl F W) may w,
    defined_calls flatten im may w -> in_memory flatten im may w ->
    forall s t h, reached flatten im may w s -> in_call s t h ->
    exists n s2, n <= 5 /\ call_steps flatten im n s s2 /\ r_phase s2 t = Idle.
Proof. exact @share_progress. Qed.
Print Assumptions C111_progress.

Theorem C111_released :
  forall (F W : Type) flatten (im : impl F W) may w,
    defined_calls flatten im may w -> in_memory flatten im may w ->
    forall s h o, reached flatten im may w s -> nth_error (r_objs s) h = Some o ->
    (forall t, ~ in_call s t h) -> o_owner o = None.
Proof. exact @share_released. Qed.
Print Assumptions C111_released.

(* whichever threads its iterator is moved to, the results of a call are taken in order, each once, and each is the one at its
   position of the answer *)
Theorem C111_results :
  forall (F W : Type) flatten (im : impl F W) may w,
    defined_calls flatten im may w -> in_memory flatten im may w ->
    forall s, reached flatten im may w s ->
    (forall k, exists q, taken s k = seq 0 q /\ forall rs, results_of s k rs -> q <= length rs) /\
    (forall j t k p x, slot s j = Some (t, VRes k p x) ->
       exists rs, results_of s k rs /\ nth_error rs p = Some (h_result x) /\ In p (taken s k)) /\
    (forall j1 t1 x1 j2 t2 x2 k p, slot s j1 = Some (t1, VRes k p x1) -> slot s j2 = Some (t2, VRes k p x2) -> j1 = j2).
Proof. exact @share_results. Qed.
Print Assumptions C111_results.

(* the next call gives the next result, until there is none *)
Theorem C111_next :
  forall (F W : Type) flatten (im : impl F W) may w,
    defined_calls flatten im may w -> in_memory flatten im may w ->
    forall s j t k src, reached flatten im may w s -> slot s j = Some (t, VIter k src) ->
    exists rs, results_of s k rs /\
      forall s1, do_next t j k src s = Ok s1 ->
        let q := length (taken s k) in
        match nth_error rs q with
        | Some x => exists m, slot s1 m = Some (t, VRes k q (handle_new x)) /\ taken s1 k = taken s k ++ [q] /\ slot s m = None
        | None => s1 = s
        end.
Proof. exact @share_iterators. Qed.
Print Assumptions C111_next.

(* a view shows its range for as long as it exists, whoever reads it *)
Theorem C111_views :
  forall (F W : Type) flatten (im : impl F W) may w,
    defined_calls flatten im may w -> in_memory flatten im may w ->
    forall s j n, reached flatten im may w s -> In (j, n) (r_views s) ->
    exists t k p x rs r, slot s j = Some (t, VRes k p x) /\ results_of s k rs /\ nth_error rs p = Some r /\
      (n < lenN (fst r))%N /\ read_view s (j, n) = Ok (nth_range r n).
Proof. exact @share_views. Qed.
Print Assumptions C111_views.

(* two threads and a clone: the second waits for the lock, its failed call leaves the lock free, both handles are dropped, the
   iterator is moved to a third thread, and the view is still there *)
Example C111_example : exists s, reached (fun x => [x]) counting made_calls 0 s /\
  r_objs s = [mk_shared 0 None false] /\ r_slots s = shared_slots /\
  mine 0 (r_got s) = [Ok (AIter (source_new [Some ([[1; 7]], [[3%N]])]))] /\
  mine 1 (r_got s) = [Ok (AIter (source_new [Some ([[2; 7]], [[3%N]])])); Throw EUser] /\
  r_views s = [(4, 0%N)] /\ read_view s (4, 0%N) = Ok (mk_view [1; 7] [3%N]).
Proof. exact share_example. Qed.
Example C111_example_calls :
  defined_calls (fun x => [x]) counting made_calls 0 /\ in_memory (fun x => [x]) counting made_calls 0.
Proof. exact share_example_calls. Qed.
