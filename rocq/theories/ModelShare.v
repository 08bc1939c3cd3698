(* Model of the Rust objects used by several threads: a handle shared through Arc<Mutex<..>>
   (rust/crates/gribjump/src/handle.rs), the iterators and results its calls give (iterator.rs, result.rs), and the views
   borrowed from results (result.rs:82-113).

   Taken from the Rust language, as the signatures have it:
   - a value has one owner, a thread; `GribJump` (Arc<Mutex<..>>, handle.rs:19, 44), `ExtractionIterator` (iterator.rs:61) and
     `ExtractionResult` (result.rs:32) can be moved to another thread (Send);
   - `&self` methods of GribJump can be called by any thread while the owner keeps the value (Sync); the value is neither moved
     nor dropped before the call returns;
   - ExtractionIterator::next takes `&mut self`, ExtractionResult is not Sync: only the owner calls their methods;
   - a RangeView borrows from its result: the result is neither moved nor dropped while there is a view.  The slices of a view
     can be read by any thread.
   The mutex is parking_lot's: it is not poisoned, and a lock is released when its guard is dropped.

   A call is three steps, so that other threads act in between: taking the lock, the library call, and giving the lock back.
   Undefined are: using or freeing a C++ object that is gone, two threads inside one C++ handle, and writing to memory
   while a view refers to it. *)
From Verif Require Import Base ModelStrings ModelJumper ModelEngine ModelApi ModelRust.
Local Open Scope nat_scope.

Section Share.
Context {F W : Type}.

(* ---- the calls: handle.rs:76-222 ---- *)
Inductive rcall :=
| RExtract (reqs : list request)
| RExtractPaths (reqs : list rs_path_request)
| RExtractMars (req : string) (ranges : list interval) (hash : string)
| RExtractFile (path : string) (messages : list (N * list interval))
| RAxes (req : string) (level : Z)
| RScanPaths (paths : list string)
| RScanRequests (reqs : list string) (by_files : bool).
Inductive ranswer := AIter (s : source (result F)) | AAxes (l : list (string * list string)) | ACount (n : N).

Variable flatten : string -> list string.
Variable i : impl F W.

Definition rust_call (c : rcall) : @action W ranswer :=
  match c with
  | RExtract reqs => amap AIter (rs_extract i reqs)
  | RExtractPaths reqs => amap AIter (rs_extract_from_paths i reqs)
  | RExtractMars req ranges hash => amap AIter (gj_extract_mars flatten i req ranges hash)
  | RExtractFile path messages => amap AIter (bridge_extract_from_file i (to_cxx path messages))
  | RAxes req level => amap AAxes (gj_axes i req level)
  | RScanPaths paths => amap ACount (gj_scan_paths i paths)
  | RScanRequests reqs by_files => amap ACount (gj_scan_requests i reqs by_files)
  end.

(* ---- the state ---- *)
(* an Arc<Mutex<HandleInner>>: the count of the Arc, who has the lock, and whether the C++ handle is there *)
Record shared := mk_shared { o_refs : nat; o_owner : option nat; o_alive : bool }.

(* a Rust value.  The numbers of an iterator and a result say where they come from: the call, and the position in its
   answer; the program does not have them *)
Inductive rvalue :=
| VHandle (h : nat)
| VIter (call : nat) (s : source (result F))
| VRes (call pos : nat) (x : handle F).

(* what a thread is doing: j is the value the call was made on *)
Inductive rphase :=
| Idle
| Locking (j h : nat) (c : rcall)
| Locked (j h : nat) (c : rcall)
| Called (j h call : nat) (r : outcome ranswer).

Record rstate := mk_rstate {
  r_world : W;
  r_objs : list shared;
  r_slots : list (option (nat * rvalue));        (* the values with their owners; None: moved out of scope *)
  r_phase : nat -> rphase;                       (* of each thread *)
  r_views : list (nat * N);                      (* the views: which result, which range *)
  (* what happened, for the statements; the program does not have them *)
  r_hist : list (nat * rcall * outcome ranswer); (* the library calls *)
  r_asked : list (nat * rcall);                  (* the calls of methods *)
  r_got : list (nat * outcome ranswer);          (* what methods returned *)
  r_taken : list (nat * nat)                     (* the results iterators gave: call and position *)
}.

Fixpoint put {A} (l : list A) (n : nat) (x : A) : list A :=
  match l, n with
  | [], _ => []
  | _ :: r, O => x :: r
  | y :: r, S k => y :: put r k x
  end.
Definition slot (s : rstate) (j : nat) : option (nat * rvalue) :=
  match nth_error (r_slots s) j with Some v => v | None => None end.

Definition set_world (s : rstate) (w : W) :=
  mk_rstate w (r_objs s) (r_slots s) (r_phase s) (r_views s) (r_hist s) (r_asked s) (r_got s) (r_taken s).
Definition set_obj (s : rstate) (h : nat) (o : shared) :=
  mk_rstate (r_world s) (put (r_objs s) h o) (r_slots s) (r_phase s) (r_views s) (r_hist s) (r_asked s) (r_got s) (r_taken s).
Definition new_obj (s : rstate) (o : shared) :=
  mk_rstate (r_world s) (r_objs s ++ [o]) (r_slots s) (r_phase s) (r_views s) (r_hist s) (r_asked s) (r_got s) (r_taken s).
Definition set_slot (s : rstate) (j : nat) (v : option (nat * rvalue)) :=
  mk_rstate (r_world s) (r_objs s) (put (r_slots s) j v) (r_phase s) (r_views s) (r_hist s) (r_asked s) (r_got s) (r_taken s).
Definition new_slot (s : rstate) (t : nat) (v : rvalue) :=
  mk_rstate (r_world s) (r_objs s) (r_slots s ++ [Some (t, v)]) (r_phase s) (r_views s) (r_hist s) (r_asked s) (r_got s) (r_taken s).
Definition set_phase (s : rstate) (t : nat) (p : rphase) :=
  mk_rstate (r_world s) (r_objs s) (r_slots s) (fun u => if u =? t then p else r_phase s u) (r_views s) (r_hist s)
    (r_asked s) (r_got s) (r_taken s).
Definition set_views (s : rstate) (l : list (nat * N)) :=
  mk_rstate (r_world s) (r_objs s) (r_slots s) (r_phase s) l (r_hist s) (r_asked s) (r_got s) (r_taken s).
Definition log_hist (s : rstate) (e : nat * rcall * outcome ranswer) :=
  mk_rstate (r_world s) (r_objs s) (r_slots s) (r_phase s) (r_views s) (r_hist s ++ [e]) (r_asked s) (r_got s) (r_taken s).
Definition log_asked (s : rstate) (e : nat * rcall) :=
  mk_rstate (r_world s) (r_objs s) (r_slots s) (r_phase s) (r_views s) (r_hist s) (r_asked s ++ [e]) (r_got s) (r_taken s).
Definition log_got (s : rstate) (e : nat * outcome ranswer) :=
  mk_rstate (r_world s) (r_objs s) (r_slots s) (r_phase s) (r_views s) (r_hist s) (r_asked s) (r_got s ++ [e]) (r_taken s).
Definition log_taken (s : rstate) (e : nat * nat) :=
  mk_rstate (r_world s) (r_objs s) (r_slots s) (r_phase s) (r_views s) (r_hist s) (r_asked s) (r_got s) (r_taken s ++ [e]).

(* ---- what the borrow checker looks at ---- *)
Definition viewed (s : rstate) (j : nat) : bool := existsb (fun v => fst v =? j) (r_views s).
Definition uses (p : rphase) (j : nat) : Prop :=
  match p with
  | Idle => False
  | Locking j' _ _ | Locked j' _ _ | Called j' _ _ _ => j' = j
  end.
(* the value of slot j can be moved or dropped *)
Definition unborrowed (s : rstate) (j : nat) : Prop := viewed s j = false /\ forall t, ~ uses (r_phase s t) j.

(* ---- the steps ---- *)
(* a C++ handle that is there *)
Definition live (s : rstate) (h : nat) : outcome shared :=
  match nth_error (r_objs s) h with
  | Some o => if o_alive o then Ok o else UB
  | None => UB
  end.

(* GribJump::new, handle.rs:60-65 *)
Definition do_new (t : nat) (s : rstate) : rstate :=
  new_slot (new_obj s (mk_shared 1 None true)) t (VHandle (length (r_objs s))).
(* Clone, handle.rs:46-52: Arc::clone *)
Definition do_clone (t h : nat) (s : rstate) : outcome rstate :=
  let* o := live s h in
  Ok (new_slot (set_obj s h (mk_shared (S (o_refs o)) (o_owner o) (o_alive o))) t (VHandle h)).
(* the end of a value's life.  The last Arc frees the C++ handle; nobody may be inside. *)
Definition do_drop (j : nat) (v : rvalue) (s : rstate) : outcome rstate :=
  match v with
  | VHandle h =>
      let* o := live s h in
      if o_refs o =? 1
      then match o_owner o with
           | None => Ok (set_slot (set_obj s h (mk_shared 0 None false)) j None)
           | Some _ => UB
           end
      else Ok (set_slot (set_obj s h (mk_shared (pred (o_refs o)) (o_owner o) (o_alive o))) j None)
  | _ => Ok (set_slot s j None)
  end.
(* self.inner.lock(), e.g. handle.rs:78; None: somebody has the lock *)
Definition do_lock (t j h : nat) (c : rcall) (s : rstate) : option (outcome rstate) :=
  match live s h with
  | Ok o => match o_owner o with
            | None => Some (Ok (set_phase (set_obj s h (mk_shared (o_refs o) (Some t) (o_alive o))) t (Locked j h c)))
            | Some _ => None
            end
  | _ => Some UB
  end.
(* the library call with guard.0.pin_mut(), e.g. handle.rs:79 *)
Definition do_call (t j h : nat) (c : rcall) (s : rstate) : outcome rstate :=
  let* o := live s h in
  match o_owner o with
  | Some u =>
      if u =? t then
        match rust_call c (r_world s) with
        | (UB, _) => UB
        | (r, w) => Ok (log_hist (set_phase (set_world s w) t (Called j h (length (r_hist s)) r)) (t, c, r))
        end
      else UB
  | None => UB
  end.
(* drop(guard), e.g. handle.rs:80, or the end of the guard's scope when `?` returns the error; then the answer is
   returned, an iterator as a value of its own *)
Definition unlocked (s : rstate) (h : nat) (o : shared) : rstate := set_obj s h (mk_shared (o_refs o) None (o_alive o)).
Definition do_return (t h call : nat) (r : outcome ranswer) (s : rstate) : outcome rstate :=
  let* o := live s h in
  let s1 := log_got (set_phase (unlocked s h o) t Idle) (t, r) in
  match r with
  | Ok (AIter src) => Ok (new_slot s1 t (VIter call src))
  | _ => Ok s1
  end.
(* iterator.rs:35-54 *)
Definition do_next (t j call : nat) (src : source (result F)) (s : rstate) : outcome rstate :=
  match rust_next src with
  | Ok (Some x, src1) =>
      let pos := N.to_nat (s_index src) in
      Ok (log_taken (new_slot (set_slot s j (Some (t, VIter call src1))) t (VRes call pos (handle_new x))) (call, pos))
  | Ok (None, src1) => Ok (set_slot s j (Some (t, VIter call src1)))
  | Throw _ => Ok s
  | UB => UB
  end.
(* result.rs:82-113; gribjump_bridge.cpp:112-132 writes the cache unless it has been converted *)
Definition writes_cache (x : handle F) (n : N) : bool := negb (num_ranges x <=? n)%N && negb (h_converted x).
Definition do_range (t j call pos : nat) (x : handle F) (n : N) (s : rstate) : outcome rstate :=
  if writes_cache x n && viewed s j then UB
  else
    let (v, x1) := rs_range x n in
    let s1 := set_slot s j (Some (t, VRes call pos x1)) in
    Ok (match v with Some _ => set_views s1 (r_views s1 ++ [(j, n)]) | None => s1 end).

(* reading the slices of a view *)
Definition read_view (s : rstate) (v : nat * N) : outcome (view F) :=
  match slot s (fst v) with
  | Some (_, VRes _ _ x) => Ok (mk_view (or_empty (values_at x (snd v))) (or_empty (nth_error (h_cache x) (N.to_nat (snd v)))))
  | _ => UB
  end.

(* the calls the program makes *)
Variable may : rcall -> Prop.

Inductive rstep : rstate -> outcome rstate -> Prop :=
| S_new t s : rstep s (Ok (do_new t s))
| S_clone t u j h s : slot s j = Some (u, VHandle h) -> rstep s (do_clone t h s)
| S_drop t j v s : slot s j = Some (t, v) -> unborrowed s j -> rstep s (do_drop j v s)
| S_move t u j v s : slot s j = Some (t, v) -> unborrowed s j -> rstep s (Ok (set_slot s j (Some (u, v))))
| S_call t u j h c s : slot s j = Some (u, VHandle h) -> r_phase s t = Idle -> may c ->
    rstep s (Ok (log_asked (set_phase s t (Locking j h c)) (t, c)))
| S_lock t j h c s o : r_phase s t = Locking j h c -> do_lock t j h c s = Some o -> rstep s o
| S_lib t j h c s : r_phase s t = Locked j h c -> rstep s (do_call t j h c s)
| S_return t j h k r s : r_phase s t = Called j h k r -> rstep s (do_return t h k r s)
| S_next t j k src s : slot s j = Some (t, VIter k src) -> rstep s (do_next t j k src s)
| S_range t j k p x n s : slot s j = Some (t, VRes k p x) -> rstep s (do_range t j k p x n s)
| S_unview l1 v l2 s : r_views s = l1 ++ v :: l2 -> rstep s (Ok (set_views s (l1 ++ l2))).

Inductive rsteps : rstate -> outcome rstate -> Prop :=
| R_end s : rsteps s (Ok s)
| R_step s s1 o : rstep s (Ok s1) -> rsteps s1 o -> rsteps s o
| R_bad s : rstep s UB -> rsteps s UB.

Definition start (w : W) : rstate := mk_rstate w [] [] (fun _ => Idle) [] [] [] [] [].
End Share.
Arguments rstate : clear implicits.
Arguments rvalue : clear implicits.
Arguments ranswer : clear implicits.
Arguments rphase : clear implicits.
