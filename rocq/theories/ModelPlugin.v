(* Model of the archive plugin: src/gribjump/FDBPlugin.cc (selection, archive and flush callbacks) and
   src/gribjump/info/InfoAggregator.cc (the bounded queue and its consumer thread), with the InfoCache of
   ModelCache.v behind them.

   Simplifications.
   - A regular expression is its text; matching is the oracle [regex], None when the text does not compile.
   - A key is the list of its keyword/value pairs; Key::get raises SeriousBug for a missing keyword (fdb5).
   - A field location is its path and what std::stoll makes of the fragment of its URI.
   - eckit::Queue: emplace asserts that the queue is open and blocks while it is full, pop blocks while it is
     empty and open, and returns -1 once it is closed and empty.  Its condition variable is not modelled: a
     blocked call goes on when its condition has become true.
   - An exception that leaves the consumer thread ends the process (std::terminate).
   - Statistics (count_) and logging are left out. *)
From Verif Require Import Base ModelStrings ModelInfo ModelLRU ModelIndex ModelCache ModelQueue.
Local Open Scope nat_scope.

(* ---- selection ---- *)
Section Select.
Variable regex : string -> option (string -> bool).

(* configParsed_, selectDict_ (FDBPlugin.h:36-37) *)
Record selection := mk_selection { sel_parsed : bool; sel_dict : list (string * string) }.
Definition no_selection : selection := mk_selection false [].

(* parseConfig, lines 98-109: the entries read and whether all of them were fine *)
Fixpoint parse_pairs (l : list string) (dict : list (string * string)) : list (string * string) * outcome unit :=
  match l with
  | [] => (dict, Ok tt)
  | kv :: r =>
      match split "="%char kv with
      | [k; p] =>
          match sfind k dict with
          | Some _ => (dict, Throw EUser)
          | None => match regex p with
                    | Some _ => parse_pairs r (dict ++ [(k, p)])
                    | None => (dict, Throw ELibrary)
                    end
          end
      | _ => (dict, Throw EUser)
      end
  end.

(* parseConfig, lines 86-117 *)
Definition parse_config (select : string) (s : selection) : selection * outcome unit :=
  if sel_parsed s then (s, Ok tt)
  else let (dict, r) := parse_pairs (split ","%char select) (sel_dict s) in (mk_selection true dict, r).

(* matches, lines 120-133 *)
Fixpoint match_all (dict key : list (string * string)) : outcome bool :=
  match dict with
  | [] => Ok true
  | (k, p) :: r =>
      match sfind k key with
      | None => Throw ESeriousBug
      | Some v => match regex p with
                  | None => Throw ELibrary
                  | Some f => if f v then match_all r key else Ok false
                  end
      end
  end.

Definition matches (dict key : list (string * string)) : outcome bool :=
  match dict with [] => Ok false | _ => match_all (in_key_order dict) key end.

(* addFDB, lines 52-82: registers callbacks unless the configuration is refused *)
Definition add_fdb (select : string) (s : selection) : selection * outcome unit := parse_config select s.
Fixpoint add_fdbs (select : string) (n : nat) (s : selection) : selection * list (outcome unit) :=
  match n with
  | O => (s, [])
  | S n => let (s, r) := add_fdb select s in let (s, l) := add_fdbs select n s in (s, r :: l)
  end.
End Select.

(* ---- the callbacks and the aggregator ---- *)
Section Plugin.
Context {F : Type}.
Variable uniq : string -> string.
Variable g : @config.                                       (* of the InfoCache *)
Variable selected : list (string * string) -> outcome bool. (* matches *)
(* InfoFactory::build(handle, 0), InfoFactory.cc, on the archived bytes *)
Variable build : list N -> outcome (info F).
(* what the future of the n-th archive call of FDB object i gives: path, and stoll of the fragment *)
Definition location := (string * outcome Z)%type.
Variable loc : nat -> nat -> outcome location.

(* what an FDB object is asked to do *)
Inductive event := Archive (key : list (string * string)) (bytes : list N) | Flush.
Variable events : nat -> list event.

(* isGrib, InfoAggregator.cc:22-28; the callback has seen to it that there are four bytes *)
Definition is_grib (bytes : list N) : bool :=
  match bytes with
  | a :: b :: c :: d :: _ => ((a =? 71) && (b =? 82) && (c =? 73) && (d =? 66))%N
  | _ => false
  end.

(* AGGREGATOR_QUEUE_SIZE, line 33 *)
Definition queue_size := 8.

(* futures_ holds the number of the archive call, for its future, and the info *)
Notation element := (nat * info F)%type.

(* the consumer thread, lines 36-45: in pop, waiting for the future, ended *)
Inductive consumer := KPop | KWait (e : element) | KDone.

Record aggregator := mk_agg { a_queue : list element; a_closed : bool; a_consumer : consumer }.
Definition agg_new : aggregator := mk_agg [] false KPop.

(* the archiving thread: between callbacks, in emplace, in join *)
Inductive producer := UIdle | UEmplace (e : element) | UJoin.

(* one FDB object: its thread, its aggregator, the outcomes of the callbacks so far *)
Record fdb := mk_fdb { d_pc : producer; d_agg : option aggregator; d_log : list (outcome unit) }.

Record sys := mk_sys {
  y_fdbs : nat -> fdb;
  y_ready : nat -> nat -> bool;     (* which futures have been fulfilled *)
  y_cache : @cache F;               (* InfoCache::instance() *)
  y_dead : bool                     (* std::terminate *)
}.

Definition fdb_new : fdb := mk_fdb UIdle None [].
Definition sys_new (d : @disk F) (cap : nat) : sys := mk_sys (fun _ => fdb_new) (fun _ _ => false) (cache_new d cap) false.

Definition set_fdb (s : sys) (i : nat) (x : fdb) : sys := mk_sys (wupd (y_fdbs s) i x) (y_ready s) (y_cache s) (y_dead s).
Definition set_cache (s : sys) (c : @cache F) : sys := mk_sys (y_fdbs s) (y_ready s) c (y_dead s).
Definition logged (x : fdb) (r : outcome unit) : fdb := mk_fdb UIdle (d_agg x) (d_log x ++ [r]).

(* a callback up to its first blocking call: FDBPlugin.cc:60-72 with InfoAggregator::add, lines 52-66, and
   FDBPlugin.cc:75-81 with InfoAggregator::flush, lines 79-82 *)
Definition start (x : fdb) (e : event) : fdb :=
  match e with
  | Archive key bytes =>
      match selected key with
      | Ok false => logged x (Ok tt)
      | Ok true =>
          if (lenN bytes <? 4)%N then logged x (Ok tt)
          else
            let x := mk_fdb UIdle (Some (match d_agg x with Some a => a | None => agg_new end)) (d_log x) in
            if is_grib bytes then
              match build bytes with
              | Ok inf => mk_fdb (UEmplace (length (d_log x), inf)) (d_agg x) (d_log x)
              | Throw err => logged x (Throw err)
              | UB => logged x UB
              end
            else logged x (Ok tt)
      | Throw err => logged x (Throw err)
      | UB => logged x UB
      end
  | Flush =>
      match d_agg x with
      | None => logged x (Ok tt)
      | Some a => mk_fdb UJoin (Some (mk_agg (a_queue a) true (a_consumer a))) (d_log x)
      end
  end.

(* the threads *)
Inductive action := Caller (i : nat) | Worker (i : nat) | Fulfil (i n : nat).

(* one step of a thread, and the call on the InfoCache it makes, if any; None: the thread cannot move *)
Definition act (s : sys) (a : action) : option (sys * option (@call F)) :=
  if y_dead s then None else
  match a with
  | Fulfil i n => Some (mk_sys (y_fdbs s) (fun j m => if Nat.eqb j i && Nat.eqb m n then true else y_ready s j m)
                               (y_cache s) false, None)
  | Caller i =>
      let x := y_fdbs s i in
      match d_pc x with
      | UIdle => match nth_error (events i) (length (d_log x)) with
                 | Some e => Some (set_fdb s i (start x e), None)
                 | None => None
                 end
      | UEmplace e =>
          match d_agg x with
          | Some a => if a_closed a then Some (set_fdb s i (logged x (Throw EAssert)), None)
                      else if length (a_queue a) <? queue_size
                      then Some (set_fdb s i (mk_fdb UIdle (Some (mk_agg (a_queue a ++ [e]) false (a_consumer a)))
                                                     (d_log x ++ [Ok tt])), None)
                      else None
          | None => None
          end
      | UJoin =>
          (* join, ASSERT(futures_.empty()), InfoCache::flush(true), aggregator.reset() *)
          match d_agg x with
          | Some a =>
              match a_consumer a with
              | KDone =>
                  match a_queue a with
                  | [] => let (c, r) := c_flush uniq (y_cache s) true in
                          let x' := match r with
                                    | Ok _ => mk_fdb UIdle None (d_log x ++ [Ok tt])
                                    | _ => logged x r
                                    end in
                          Some (set_cache (set_fdb s i x') c, Some (CFlush true))
                  | _ => Some (set_fdb s i (logged x (Throw EAssert)), None)
                  end
              | _ => None
              end
          | None => None
          end
      end
  | Worker i =>
      let x := y_fdbs s i in
      match d_agg x with
      | None => None
      | Some a =>
          let to q k := set_fdb s i (mk_fdb (d_pc x) (Some (mk_agg q (a_closed a) k)) (d_log x)) in
          match a_consumer a with
          | KPop => match a_queue a with
                    | e :: q => Some (to q (KWait e), None)
                    | [] => if a_closed a then Some (to [] KDone, None) else None
                    end
          | KWait (n, inf) =>
              if y_ready s i n then
                match loc i n with
                | Ok (path, Ok off) =>
                    (* insert, lines 69-76 *)
                    Some (set_cache (to (a_queue a) KPop) (c_insert g (y_cache s) path off inf),
                          Some (CInsert path off inf))
                | _ => Some (mk_sys (y_fdbs s) (y_ready s) (y_cache s) true, None)
                end
              else None
          | KDone => None
          end
      end
  end.

(* an execution: actions in order; the calls on the InfoCache with the FDB object they are made for *)
Definition who (a : action) : nat := match a with Caller i | Worker i | Fulfil i _ => i end.
Fixpoint play (s : sys) (l : list action) : option (sys * list (nat * @call F)) :=
  match l with
  | [] => Some (s, [])
  | a :: r =>
      match act s a with
      | None => None
      | Some (s, q) =>
          match play s r with
          | None => None
          | Some (s, tr) => Some (s, match q with Some q => (who a, q) :: tr | None => tr end)
          end
      end
  end.

(* SerialAggregator (lines 102-143) in the place of InfoAggregator: archive calls one by one *)
Definition serial_event (i n : nat) (e : event) (c : @cache F) : @cache F * outcome unit :=
  match e with
  | Archive key bytes =>
      match selected key with
      | Ok false => (c, Ok tt)
      | Ok true =>
          if (lenN bytes <? 4)%N then (c, Ok tt)
          else if is_grib bytes then
            match build bytes with
            | Ok inf => match loc i n with
                        | Ok (path, Ok off) => (c_insert g c path off inf, Ok tt)
                        | Ok (_, Throw err) | Throw err => (c, Throw err)
                        | _ => (c, UB)
                        end
            | Throw err => (c, Throw err)
            | UB => (c, UB)
            end
          else (c, Ok tt)
      | Throw err => (c, Throw err)
      | UB => (c, UB)
      end
  | Flush => c_flush uniq c true
  end.

Fixpoint serial_run (i n : nat) (l : list event) (c : @cache F) : @cache F * list (outcome unit) :=
  match l with
  | [] => (c, [])
  | e :: r => let (c, o) := serial_event i n e c in let (c, os) := serial_run i (S n) r c in (c, o :: os)
  end.
End Plugin.
