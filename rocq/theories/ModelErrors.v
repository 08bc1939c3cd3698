(* Errors at the C interface: LAST_ERROR_STR, tryCatch and gribjump_error_string (gribjump_c.cc:29-60), the null
   iterator of gribjump_extractioniterator_next (gribjump_c.cc:388-391), and how Python turns a return code into an
   exception (pygribjump.py:85-123).

   LAST_ERROR_STR is one std::string of the process, shared by all threads, without a lock; cffi releases
   Python's lock during a call.  Storing a text is not one step: the string has been entered by the thread and
   not yet left.  A pointer returned by gribjump_error_string is good until the string is next stored to.
   What a call of the library does is a parameter: the texts it ends with, in the order of the calls. *)
From Verif Require Import Base.
Local Open Scope nat_scope.

Inductive call_end :=
| Success
| Exception (what : string)           (* a std::exception *)
| Other                               (* anything else that is thrown *)
| NullIterator.                       (* lines 389-392 *)

(* the text tryCatch stores, lines 46-59 *)
Definition stored_text (e : call_end) : option string :=
  match e with
  | Success => None
  | Exception what => Some what
  | Other => Some "Unknown exception"%string
  | NullIterator => Some "gribjump_extractioniterator_next: iterator is null"%string
  end.

(* pygribjump.py:108,119 *)
Definition python_message (name text : string) : string :=
  ("Error in function '" ++ name ++ "': " ++ text)%string.

Inductive user :=
| Idle                                (* before the next call *)
| Calling (name : string) (e : call_end)
| Storing (name : string) (e : call_end) (text : string)
| Failed (name : string) (e : call_end)                    (* the return code is an error *)
| Asked (name : string) (e : call_end) (pointer : nat).    (* gribjump_error_string has returned *)

Record errors := mk_errors {
  er_text : string;                   (* LAST_ERROR_STR *)
  er_stores : nat;                    (* how often it was stored to *)
  er_users : nat -> user;
  er_calls : nat -> nat;              (* how many calls a thread has made *)
  er_raised : list (nat * call_end * string)      (* exceptions raised in Python: the thread, the call's end, the text *)
}.
Definition errors_init : errors := mk_errors "Unknown error" 0 (fun _ => Idle) (fun _ => 0) [].

Definition set_user (s : errors) (t : nat) (u : user) : errors :=
  mk_errors (er_text s) (er_stores s) (fun t' => if Nat.eqb t' t then u else er_users s t') (er_calls s) (er_raised s).
Definition storing (u : user) : bool := match u with Storing _ _ _ => true | _ => false end.

Section Errors.
(* call k of thread t: the function and how it ends; None: no further call *)
Variable calls : nat -> nat -> option (string * call_end).

(* the next state of thread t, and None if it has nothing to do.  [busy]: another thread is storing a text *)
Definition user_step (s : errors) (t : nat) (busy : bool) : option (outcome errors) :=
  match er_users s t with
  | Idle =>
      match calls t (er_calls s t) with
      | None => None
      | Some (name, e) =>
          Some (Ok (mk_errors (er_text s) (er_stores s) (fun t' => if Nat.eqb t' t then Calling name e else er_users s t')
                              (fun t' => if Nat.eqb t' t then S (er_calls s t) else er_calls s t') (er_raised s)))
      end
  | Calling name e =>
      match stored_text e with
      | None => Some (Ok (set_user s t Idle))
      | Some text => Some (if busy then UB else Ok (set_user s t (Storing name e text)))
      end
  | Storing name e text =>
      let s' := set_user s t (Failed name e) in
      Some (Ok (mk_errors text (S (er_stores s)) (er_users s') (er_calls s') (er_raised s')))
  | Failed name e => Some (if busy then UB else Ok (set_user s t (Asked name e (er_stores s))))
  | Asked name e p =>
      Some (if busy || negb (Nat.eqb p (er_stores s)) then UB
            else let s' := set_user s t Idle in
                 Ok (mk_errors (er_text s) (er_stores s) (er_users s') (er_calls s')
                               (er_raised s ++ [(t, e, python_message name (er_text s))])))
  end.

(* every interleaving: [busy] is true exactly if another thread is storing *)
Inductive errors_run : list nat -> outcome errors -> Prop :=
| R_init : errors_run [] (Ok errors_init)
| R_step : forall l s t busy o, errors_run l (Ok s) ->
    (busy = true <-> exists t', t' <> t /\ storing (er_users s t') = true) ->
    user_step s t busy = Some o -> errors_run (l ++ [t]) o.
End Errors.
