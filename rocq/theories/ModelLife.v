(* Model of who owns what at the Python/C boundary: the C objects made by gribjump_c.cc, the cffi objects that own them
   (`ffi.gc`, pygribjump.py lines 165, 246, 297, 351, 376, 397, 527, 578), the Python objects that refer to those, and a garbage
   collector that frees unreachable Python objects in any order at any time.

   What the C functions compute is left out; what matters is which objects they touch:
   - gribjump_extract and gribjump_extract_from_paths copy the requests they are given, then use the handle
     (gribjump_c.cc:264-297); the iterator they make refers to neither (ModelApi.v: it holds the results);
   - gribjump_extractioniterator_next moves a result out of the iterator into an object of its own (lines 77-82, 386-402);
   - gribjump_axes_keys and gribjump_axes_values give pointers to texts inside the axes object (lines 125-147).
   A failed call has made nothing: the new object is stored last.

   Threads: cffi releases Python's lock during a call, so other threads and the collector act between the steps of a call.
   What a running call refers to (its arguments and local variables) is its frame, and frames are not collected. *)
From Verif Require Import Base.
Local Open Scope nat_scope.

(* ---- the C side ---- *)
Inductive ckind := CHandle | CRequest | CPathRequest | CIterator | CResult | CAxes
| CBuffer.                                           (* memory of ffi.new *)
Definition ckind_eqb (a b : ckind) : bool :=
  match a, b with
  | CHandle, CHandle | CRequest, CRequest | CPathRequest, CPathRequest | CIterator, CIterator | CResult, CResult
  | CAxes, CAxes | CBuffer, CBuffer => true
  | _, _ => false
  end.
Record cobj := mk_cobj { co_kind : ckind; co_live : bool; co_left : nat (* results left in an iterator *) }.

Fixpoint set_nth {A} (l : list A) (n : nat) (x : A) : list A :=
  match l, n with
  | [], _ => []
  | _ :: r, O => x :: r
  | y :: r, S k => y :: set_nth r k x
  end.

(* a pointer to an object that is not there, or to one of another kind, must not be used *)
Definition c_touch (h : list cobj) (k : ckind) (p : nat) : outcome cobj :=
  match nth_error h p with
  | Some o => if ckind_eqb (co_kind o) k && co_live o then Ok o else UB
  | None => UB
  end.
Definition c_free (h : list cobj) (k : ckind) (p : nat) : outcome (list cobj) :=
  let* o := c_touch h k p in Ok (set_nth h p (mk_cobj (co_kind o) false (co_left o))).
Fixpoint c_touch_all (h : list cobj) (k : ckind) (ps : list nat) : outcome unit :=
  match ps with
  | [] => Ok tt
  | p :: r => let* _ := c_touch h k p in c_touch_all h k r
  end.

(* ---- the Python side ---- *)
Inductive pdata :=
| Cdata (k : ckind) (p : nat)                        (* owns C object p: frees it when it is collected *)
| Obj (k : ckind) (cd : nat) (shapes : option nat)   (* GribJump, ExtractionRequest, ..., ExtractionResult; for an iterator the
                                                        number of shapes (None: of extract_single, any number) *)
| Gen (it : nat) (i : nat)                           (* a generator of __iter__ *)
| PList (l : list nat)                               (* a list of requests *)
| View (cd : nat)                                    (* a numpy array over a buffer: frombuffer keeps the buffer object *)
| Extracting (h l : nat) (k : ckind) (ps : list nat) (n : nat) (copied : bool)
                                                     (* frame of ExtractionIterator.__init__: the handle's cffi object and the
                                                        list are referred to; c_requests (lines 292-293) holds bare pointers *)
| ExtractingSingle (h : nat)                         (* frame of ExtractionSingleIterator.__init__ *)
| Axing (h : nat) (ax : option nat).                 (* frame of GribJump.axes: self, and ax *)

Definition refs (d : pdata) : list nat :=
  match d with
  | Cdata _ _ => []
  | Obj _ cd _ => [cd]
  | Gen it _ => [it]
  | PList l => l
  | View cd => [cd]
  | Extracting h l _ _ _ _ => [h; l]
  | ExtractingSingle h => [h]
  | Axing h ax => h :: match ax with Some a => [a] | None => [] end
  end.
Definition owns (d : pdata) : option (ckind * nat) := match d with Cdata k p => Some (k, p) | _ => None end.
Definition is_frame (d : pdata) : bool :=
  match d with Extracting _ _ _ _ _ _ | ExtractingSingle _ | Axing _ _ => true | _ => false end.

Record pnode := mk_pnode { pn_data : pdata; pn_live : bool }.
Record pstate := mk_pstate { ps_c : list cobj; ps_py : list pnode; ps_roots : list nat }.
Definition py_start : pstate := mk_pstate [] [] [].

(* what can be reached from variables and frames *)
Inductive reach (s : pstate) : nat -> Prop :=
| R_root x : In x (ps_roots s) -> reach s x
| R_ref y d x : reach s y -> nth_error (ps_py s) y = Some d -> In x (refs (pn_data d)) -> reach s x.

Definition has (s : pstate) (x : nat) (d : pdata) : Prop := exists b, nth_error (ps_py s) x = Some (mk_pnode d b).

(* new objects go to the end *)
Definition new_py (s : pstate) (ds : list pdata) (root : nat) : pstate :=
  mk_pstate (ps_c s) (ps_py s ++ map (fun d => mk_pnode d true) ds) (root :: ps_roots s).
Definition new_c (s : pstate) (o : cobj) : pstate := mk_pstate (ps_c s ++ [o]) (ps_py s) (ps_roots s).
Definition set_data (s : pstate) (x : nat) (d : pdata) : pstate :=
  mk_pstate (ps_c s) (set_nth (ps_py s) x (mk_pnode d true)) (ps_roots s).
Definition drop (s : pstate) (x : nat) : pstate :=
  mk_pstate (ps_c s) (ps_py s) (remove Nat.eq_dec x (ps_roots s)).
(* a C object, the cffi object that owns it, and the Python object that holds that, if any *)
Definition own (s : pstate) (k : ckind) (left : nat) (shapes : option nat) : pstate :=
  let s1 := new_c s (mk_cobj k true left) in
  new_py s1 [Cdata k (length (ps_c s)); Obj k (length (ps_py s)) shapes] (S (length (ps_py s))).

Inductive pop :=
| PCreate (k : ckind)                 (* GribJump(), ExtractionRequest(...), PathExtractionRequest(...) *)
| PMakeList (l : list nat) | PSetList (x : nat) (l : list nat)
| PHold (x : nat) | PDrop (x : nat)   (* the program's variables *)
| PExtract (h l : nat) | PCopy (f : nat) | PExtracted (f : nat) (n : nat) | PExtractFailed (f : nat)
| PSingle (h : nat) | PSingleDone (f : nat) (n : nat) | PSingleFailed (f : nat)
| PIter (it : nat) | PNext (g : nat)
| PRead (r : nat) | PLook (v : nat)
| PAxes (h : nat) | PAxesNew (f : nat) | PAxesLook (f : nat) | PAxesEnd (f : nat)
| PCollect (x : nat).

Definition then_ (x : outcome unit) (s : pstate) : outcome pstate := let* _ := x in Ok s.

(* one step of the program, of a running call or of the collector *)
Inductive pstep (s : pstate) : pop -> outcome pstate -> Prop :=
| S_create k : In k [CHandle; CRequest; CPathRequest] -> pstep s (PCreate k) (Ok (own s k 0 None))
| S_list l : (forall x, In x l -> reach s x) -> pstep s (PMakeList l) (Ok (new_py s [PList l] (length (ps_py s))))
| S_setlist x l l' : reach s x -> has s x (PList l) -> (forall y, In y l' -> reach s y) -> pstep s (PSetList x l') (Ok (set_data s x (PList l')))
| S_hold x d : reach s x -> has s x d -> is_frame d = false -> pstep s (PHold x) (Ok (mk_pstate (ps_c s) (ps_py s) (x :: ps_roots s)))
| S_drop x d : has s x d -> is_frame d = false -> pstep s (PDrop x) (Ok (drop s x))
(* lines 289-296, 343-350: c_requests is made from the requests in the list; all are of one kind *)
| S_extract h hc l xs k ps sh : reach s h -> has s h (Obj CHandle hc sh) -> reach s l -> has s l (PList xs) -> In k [CRequest; CPathRequest] ->
    Forall2 (fun x p => exists cd sh, has s x (Obj k cd sh) /\ has s cd (Cdata k p)) xs ps ->
    pstep s (PExtract h l) (Ok (new_py s [Extracting hc l k ps (length ps) false] (length (ps_py s))))
(* gribjump_c.cc:267-270, 283-286 *)
| S_copy f h l k ps n : has s f (Extracting h l k ps n false) -> In f (ps_roots s) ->
    pstep s (PCopy f) (then_ (c_touch_all (ps_c s) k ps) (set_data s f (Extracting h l k ps n true)))
(* lines 276, 292: the handle is used; the answer has one result for each request (C52) *)
| S_extracted f h p l k ps n : has s f (Extracting h l k ps n true) -> In f (ps_roots s) -> has s h (Cdata CHandle p) ->
    pstep s (PExtracted f n) (then_ (omap (fun _ => tt) (c_touch (ps_c s) CHandle p)) (own (drop s f) CIterator n (Some n)))
| S_extractfailed f h p l k ps n c : has s f (Extracting h l k ps n c) -> In f (ps_roots s) -> has s h (Cdata CHandle p) ->
    pstep s (PExtractFailed f) (then_ (omap (fun _ => tt) (c_touch (ps_c s) CHandle p)) (drop s f))
(* lines 357-377: any number of results *)
| S_single h hc sh : reach s h -> has s h (Obj CHandle hc sh) ->
    pstep s (PSingle h) (Ok (new_py s [ExtractingSingle hc] (length (ps_py s))))
| S_singledone f h p n : has s f (ExtractingSingle h) -> In f (ps_roots s) -> has s h (Cdata CHandle p) ->
    pstep s (PSingleDone f n) (then_ (omap (fun _ => tt) (c_touch (ps_c s) CHandle p)) (own (drop s f) CIterator n None))
| S_singlefailed f h p : has s f (ExtractingSingle h) -> In f (ps_roots s) -> has s h (Cdata CHandle p) ->
    pstep s (PSingleFailed f) (then_ (omap (fun _ => tt) (c_touch (ps_c s) CHandle p)) (drop s f))
(* lines 300-309 *)
| S_iter it cd sh : reach s it -> has s it (Obj CIterator cd sh) -> pstep s (PIter it) (Ok (new_py s [Gen it 0] (length (ps_py s))))
| S_next g it i cd sh p : reach s g -> has s g (Gen it i) -> has s it (Obj CIterator cd sh) -> has s cd (Cdata CIterator p) ->
    pstep s (PNext g)
      (let* o := c_touch (ps_c s) CIterator p in
       match co_left o with
       | O => Ok s
       | S n =>
           let s1 := mk_pstate (set_nth (ps_c s) p (mk_cobj CIterator true n)) (ps_py s) (ps_roots s) in
           if match sh with Some m => Nat.ltb i m | None => true end
           then Ok (own (set_data s1 g (Gen it (S i))) CResult 0 None)
           else Ok (new_c s1 (mk_cobj CResult true 0))      (* IndexError before ExtractionResult has the pointer *)
       end)
(* lines 648-668, 682-703: a new buffer, filled from the result, and a view of it *)
| S_read r cd sh p : reach s r -> has s r (Obj CResult cd sh) -> has s cd (Cdata CResult p) ->
    pstep s (PRead r)
      (then_ (omap (fun _ => tt) (c_touch (ps_c s) CResult p))
         (new_py (new_c s (mk_cobj CBuffer true 0)) [Cdata CBuffer (length (ps_c s)); View (length (ps_py s))] (S (length (ps_py s)))))
| S_look v cd p : reach s v -> has s v (View cd) -> has s cd (Cdata CBuffer p) ->
    pstep s (PLook v) (then_ (omap (fun _ => tt) (c_touch (ps_c s) CBuffer p)) s)
(* lines 518-546 *)
| S_axes h hc sh : reach s h -> has s h (Obj CHandle hc sh) -> pstep s (PAxes h) (Ok (new_py s [Axing h None] (length (ps_py s))))
| S_axesnew f h hc sh p : has s f (Axing h None) -> In f (ps_roots s) -> has s h (Obj CHandle hc sh) -> has s hc (Cdata CHandle p) ->
    pstep s (PAxesNew f)
      (then_ (omap (fun _ => tt) (c_touch (ps_c s) CHandle p))
         (let s1 := new_py (new_c s (mk_cobj CAxes true 0)) [Cdata CAxes (length (ps_c s))] (length (ps_py s)) in
          drop (set_data s1 f (Axing h (Some (length (ps_py s))))) (length (ps_py s))))
(* sizes, keys, values, and ffi.string of the pointers they gave *)
| S_axeslook f h a p : has s f (Axing h (Some a)) -> In f (ps_roots s) -> has s a (Cdata CAxes p) ->
    pstep s (PAxesLook f) (then_ (omap (fun _ => tt) (c_touch (ps_c s) CAxes p)) s)
| S_axesend f h a : has s f (Axing h a) -> In f (ps_roots s) -> pstep s (PAxesEnd f) (Ok (drop s f))
(* the collector *)
| S_collect x d : nth_error (ps_py s) x = Some (mk_pnode d true) -> ~ reach s x ->
    pstep s (PCollect x)
      (let gone h := mk_pstate h (set_nth (ps_py s) x (mk_pnode d false)) (ps_roots s) in
       match owns d with
       | Some (k, p) => let* h := c_free (ps_c s) k p in Ok (gone h)
       | None => Ok (gone (ps_c s))
       end).

Inductive psteps : pstate -> list pop -> pstate -> Prop :=
| PS_nil s : psteps s [] s
| PS_cons s op s1 ops s2 : pstep s op (Ok s1) -> psteps s1 ops s2 -> psteps s (op :: ops) s2.
