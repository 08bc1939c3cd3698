(* Basic vocabulary shared by all model files: outcomes of a call, 64-bit
   arithmetic and a few list operations.  No lemmas here. *)
From Coq Require Export String Ascii NArith ZArith Bool List.
Export ListNotations.
Open Scope list_scope.

(* The kinds of C++ exception the modelled code throws.  EMsg carries text where
   the text is observable (remote errors). *)
Inductive error :=
| EAssert                 (* eckit::AssertionFailed, from ASSERT(...) *)
| EUser                   (* eckit::UserError *)
| ESeriousBug             (* eckit::SeriousBug *)
| EBadValue               (* eckit::BadValue *)
| EBadParameter           (* eckit::BadParameter *)
| EOutOfRange             (* eckit::OutOfRange *)
| ERead                   (* eckit::ReadError and failed seek/read exceptions *)
| EBadAlloc               (* std::bad_alloc / std::length_error *)
| EBadJumpInfo            (* gribjump::BadJumpInfoException *)
| EDataNotFound           (* gribjump::DataNotFoundException *)
| EExtractionDisabled     (* gribjump::JumpInfoExtractionDisabled *)
| EGribJump               (* gribjump::GribJumpException *)
| ELibrary                (* eckit::FailedLibraryCall *)
| EStream                 (* eckit stream: wrong tag or premature end *)
| EBadOptional            (* std::bad_optional_access *)
| EMsg (msg : string).    (* exception whose text matters *)

(* Result of running a piece of C++: normal return, an exception, or undefined
   behaviour (out-of-bounds access, use of a dead object, ...). *)
Inductive outcome (A : Type) :=
| Ok (a : A)
| Throw (e : error)
| UB.
Arguments Ok {A} a.
Arguments Throw {A} e.
Arguments UB {A}.

Definition obind {A B} (x : outcome A) (f : A -> outcome B) : outcome B :=
  match x with Ok a => f a | Throw e => Throw e | UB => UB end.

Notation "'let*' p ':=' c1 'in' c2" := (obind c1 (fun p => c2))
  (at level 61, p pattern, c1 at next level, right associativity).

Definition omap {A B} (f : A -> B) (x : outcome A) : outcome B :=
  let* a := x in Ok (f a).

(* ASSERT(b) *)
Definition assert_ (b : bool) : outcome unit := if b then Ok tt else Throw EAssert.

(* a loop over a vector that appends one result per element *)
Fixpoint mapM {A B} (f : A -> outcome B) (l : list A) : outcome (list B) :=
  match l with
  | nil => Ok nil
  | x :: r => let* y := f x in let* ys := mapM f r in Ok (y :: ys)
  end.

(* size_t arithmetic *)
Definition two64 : N := 18446744073709551616%N.
Definition two63 : N := 9223372036854775808%N.
Definition w64 (x : N) : N := (x mod two64)%N.
Definition add64 (a b : N) : N := w64 (a + b).
Definition sub64 (a b : N) : N := w64 (w64 a + (two64 - w64 b)).
Definition mul64 (a b : N) : N := w64 (a * b).

(* reinterpretation of a size_t as a signed 64-bit integer (two's complement) *)
Definition s64 (x : N) : Z :=
  let y := w64 x in
  if (y <? two63)%N then Z.of_N y else (Z.of_N y - Z.of_N two64)%Z.

(* elements [o, o+n) of a list; shorter if the list ends before *)
Definition slice {A} (l : list A) (o n : nat) : list A := firstn n (skipn o l).

Definition lenN {A} (l : list A) : N := N.of_nat (List.length l).

(* v[i] on a std::vector: out of bounds is undefined behaviour *)
Definition at_ {A} (l : list A) (i : N) : outcome A :=
  match nth_error l (N.to_nat i) with Some x => Ok x | None => UB end.
