(* Model of loading the Python package: python/pygribjump/src/pygribjump/{__init__,_version,pygribjump}.py,
   PatchedLib.__init__ (pygribjump.py:45-82), gribjump_initialise (gribjump_c.cc:410-424) and
   gribjump_version_int (gribjump_version.c.in:10-13).

   Python's import (importlib._bootstrap._find_and_load, _handle_fromlist): a module is entered into sys.modules before its
   code runs and taken out if the code raises; a module found there is used as it is, complete or not; the parent package
   is loaded first; a submodule that has loaded becomes a name of its parent.

   Simplifications: a module is the names it has bound; modules outside the package load; the header and the functions of
   the library are as shipped; a version has no local part; reading a version from its text (packaging.version.parse) is an
   oracle, None being InvalidVersion. *)
From Verif Require Import Base ModelStrings.
Local Open Scope string_scope.

(* ---- versions, packaging.version ---- *)
Record ver := mk_ver { v_epoch : N; v_release : list N; v_pre : option (N * N); v_post : option N; v_dev : option N }.

(* parts of a comparison key: tuples between the two infinities *)
Inductive part := Lowest | Part (l : list N) | Highest.
Fixpoint tuple_compare (a b : list N) : comparison :=
  match a, b with
  | [], [] => Eq
  | [], _ => Lt
  | _, [] => Gt
  | x :: r, y :: s => match N.compare x y with Eq => tuple_compare r s | c => c end
  end.
Definition part_compare (a b : part) : comparison :=
  match a, b with
  | Part x, Part y => tuple_compare x y
  | Lowest, Lowest | Highest, Highest => Eq
  | Lowest, _ | _, Highest => Lt
  | _, _ => Gt
  end.
Fixpoint key_compare (a b : list part) : comparison :=
  match a, b with
  | x :: r, y :: s => match part_compare x y with Eq => key_compare r s | c => c end
  | [], [] => Eq
  | [], _ => Lt
  | _, [] => Gt
  end.
(* trailing zeros of the release do not count *)
Fixpoint strip (l : list N) : list N :=
  match l with
  | [] => []
  | x :: r => match strip r with [] => if (x =? 0)%N then [] else [x] | s => x :: s end
  end.
(* _cmpkey *)
Definition key (v : ver) : list part :=
  [ Part [v_epoch v]; Part (strip (v_release v));
    match v_pre v, v_post v, v_dev v with
    | None, None, Some _ => Lowest
    | None, _, _ => Highest
    | Some (a, n), _, _ => Part [a; n]
    end;
    match v_post v with None => Lowest | Some n => Part [n] end;
    match v_dev v with None => Highest | Some n => Part [n] end ].
Definition ver_lt (a b : ver) : bool := match key_compare (key a) (key b) with Lt => true | _ => false end.

(* what raises while the package loads *)
Inductive error := LibraryNotFound | LibraryFailed | InvalidVersion | LibraryTooOld | CannotImport (x : string) | NoSuchModule
  | NoAttribute | NoName | OutOfFuel.

Fixpoint list_eqb (a b : list N) : bool :=
  match a, b with [], [] => true | x :: r, y :: s => (x =? y)%N && list_eqb r s | _, _ => false end.

(* pygribjump.py:72-82: whether it warns, and what it raises *)
Definition check_versions (parse : string -> option ver) (lib own min : string) : bool * option error :=
  match parse lib, parse own with
  | Some a, Some b =>
      let warned := negb (list_eqb (firstn 3 (v_release a)) (firstn 3 (v_release b))) in
      match parse min with
      | Some c => (warned, if ver_lt a c then Some LibraryTooOld else None)
      | None => (warned, Some InvalidVersion)
      end
  | _, _ => (false, Some InvalidVersion)
  end.

(* gribjump_version_int, an unsigned int *)
Definition version_int (major minor patch : N) : N := ((10000 * major + 100 * minor + 1 * patch) mod 2 ^ 32)%N.

(* ---- modules ---- *)
(* Outside m x: attribute x of a module m outside the package; Own m x: what "class x" or "def x" or an assignment in m makes;
   Text: a string; Library: the object PatchedLib() makes; Sub m: a module of the package *)
Inductive value := Outside (m x : string) | Own (m x : string) | Text (s : string) | Library (version : string) | Sub (m : string).
Definition names := list (string * value).
Inductive stmt := Bind (x : string) (v : value) | BindOwnVersion (x : string) | FromNames (m : string) (xs : list string) | FromStar (m : string)
  | MakeLibrary (x : string).

(* the machine when a module loads: is the library found, can eckit::Main be initialised, the version of the library, the
   version of the installed package *)
Record world := mk_world { w_found : bool; w_main : bool; w_lib : string; w_own : string }.
Record python := mk_python {
  y_modules : list (string * names);
  y_initialised : bool;               (* the static of gribjump_initialise *)
  y_warnings : nat
}.
Definition fresh_python : python := mk_python [] false 0.

Fixpoint assoc {A} (x : string) (l : list (string * A)) : option A :=
  match l with [] => None | (y, v) :: r => if String.eqb y x then Some v else assoc x r end.
Fixpoint put {A} (x : string) (v : A) (l : list (string * A)) : list (string * A) :=
  match l with [] => [(x, v)] | (y, u) :: r => if String.eqb y x then (x, v) :: r else (y, u) :: put x v r end.
Definition drop {A} (x : string) (l : list (string * A)) : list (string * A) := filter (fun e => negb (String.eqb (fst e) x)) l.
Definition with_modules (f : list (string * names) -> list (string * names)) (s : python) : python :=
  mk_python (f (y_modules s)) (y_initialised s) (y_warnings s).
Definition bind (m x : string) (v : value) (s : python) : python :=
  with_modules (fun l => match assoc m l with Some ns => put m (put x v ns) l | None => l end) s.
Definition lookup (m x : string) (s : python) : option value :=
  match assoc m (y_modules s) with Some ns => assoc x ns | None => None end.
(* names without a leading underscore; there is no __all__ *)
Definition public (x : string) : bool := match x with String c _ => negb (Ascii.eqb c "_"%char) | EmptyString => true end.

Definition package := "pygribjump".
Definition parent (m : string) : option string := if String.eqb m package then None else Some package.
Definition main_module := "pygribjump.pygribjump".
Definition version_module := "pygribjump._version".
Definition submodule (m : string) : string := if String.eqb m main_module then "pygribjump" else "_version".

(* the statements that bind names, in order; own names end with those defined after line 128 *)
Definition code (m : string) : option (list stmt) :=
  if String.eqb m package then Some [FromStar main_module; FromNames version_module ["__version__"]]
  else if String.eqb m version_module then
    Some [Bind "Path" (Outside "pathlib" "Path"); FromStar main_module; Bind "importlib" (Outside "importlib" "");
          BindOwnVersion "__version__"; Bind "__min_lib_version__" (Text "0.10.0")]
  else if String.eqb m main_module then
    Some ([Bind "np" (Outside "numpy" ""); Bind "cffi" (Outside "cffi" ""); Bind "os" (Outside "os" ""); Bind "findlibs" (Outside "findlibs" "");
           Bind "warnings" (Outside "warnings" ""); FromNames version_module ["__version__"; "__min_lib_version__"];
           Bind "version" (Outside "packaging" "version"); Bind "Callable" (Outside "typing" "Callable"); Bind "Any" (Outside "typing" "Any");
           Bind "overload" (Outside "typing" "overload"); Bind "accumulate" (Outside "itertools" "accumulate"); Bind "json" (Outside "json" "");
           Bind "getuser" (Outside "getpass" "getuser"); Bind "gethostname" (Outside "socket" "gethostname")]
          ++ map (fun x => Bind x (Own m x)) ["ffi"; "CData"; "GribJumpException"; "PatchedLib"]
          ++ [MakeLibrary "lib"]
          ++ map (fun x => Bind x (Own m x))
               ["ExtractionRequest"; "PathExtractionRequest"; "ExtractionIterator"; "ExtractionIteratorFromPath"; "ExtractionSingleIterator";
                "GribJump"; "ExtractionResult"; "rangestr_to_list"; "list_to_rangestr"; "dic_to_request"; "multivalued_dic_to_request"; "version";
                "library_version"; "default_context"; "merge_default_context"])%list
  else None.

Section Load.
Variable parse : string -> option ver.
Variable w : world.

(* PatchedLib.__init__ run with the globals of module m *)
Definition make_library (m : string) (s : python) : python * (error + value) :=
  if negb (w_found w) then (s, inl LibraryNotFound)
  else if negb (y_initialised s || w_main w) then (s, inl LibraryFailed)
  else
    let s := mk_python (y_modules s) true (y_warnings s) in
    (* version.parse *)
    match lookup m "version" s with
    | None => (s, inl NoName)
    | Some (Outside "packaging" "version") =>
        match lookup m "__version__" s, lookup m "__min_lib_version__" s with
        | Some (Text own), Some (Text min) =>
            let (warned, r) := check_versions parse (w_lib w) own min in
            let s := mk_python (y_modules s) true (if warned then S (y_warnings s) else y_warnings s) in
            (s, match r with Some e => inl e | None => inr (Library (w_lib w)) end)
        | _, _ => (s, inl NoName)
        end
    | Some _ => (s, inl NoAttribute)
    end.

(* the statements of module m; ld loads a module *)
Fixpoint take (m m' : string) (xs : list string) (s : python) : python * option error :=
  match xs with
  | [] => (s, None)
  | x :: xs => match lookup m' x s with
               | Some v => take m m' xs (bind m x v s)
               | None => (s, Some (CannotImport x))
               end
  end.
Definition take_public (m m' : string) (s : python) : python :=
  let ns := match assoc m' (y_modules s) with Some ns => ns | None => [] end in
  fold_left (fun s e => if public (fst e) then bind m (fst e) (snd e) s else s) ns s.
Definition exec_one (ld : string -> python -> python * option error) (m : string) (c : stmt) (s : python) : python * option error :=
  match c with
  | Bind x v => (bind m x v s, None)
  | BindOwnVersion x => (bind m x (Text (w_own w)) s, None)
  | FromStar m' => match ld m' s with (s, None) => (take_public m m' s, None) | r => r end
  | FromNames m' xs => match ld m' s with (s, None) => take m m' xs s | r => r end
  | MakeLibrary x => match make_library m s with (s, inl e) => (s, Some e) | (s, inr v) => (bind m x v s, None) end
  end.
Fixpoint exec (ld : string -> python -> python * option error) (m : string) (l : list stmt) (s : python) : python * option error :=
  match l with
  | [] => (s, None)
  | c :: r => match exec_one ld m c s with (s, None) => exec ld m r s | e => e end
  end.

(* importlib: load m *)
Fixpoint load (fuel : nat) (m : string) (s : python) : python * option error :=
  match fuel with
  | O => (s, Some OutOfFuel)
  | S fuel =>
      match assoc m (y_modules s) with
      | Some _ => (s, None)
      | None =>
          match match parent m with Some p => load fuel p s | None => (s, None) end with
          | (s, Some e) => (s, Some e)
          | (s, None) =>
              match assoc m (y_modules s), code m with
              | Some _, _ => (s, None)
              | None, None => (s, Some NoSuchModule)
              | None, Some l =>
                  match exec (load fuel) m l (with_modules (put m []) s) with
                  | (s, Some e) => (with_modules (drop m) s, Some e)
                  | (s, None) => (match parent m with Some p => bind p (submodule m) (Sub m) s | None => s end, None)
                  end
              end
          end
      end
  end.
(* the statement "import m", which also loads what stands before the dot; three modules nest no deeper *)
Definition import (m : string) (s : python) : python * option error :=
  match load 6 m s, parent m with
  | (s, None), Some p => load 6 p s
  | r, _ => r
  end.
End Load.

(* a program that imports, catching what is raised; the machine may change in between *)
Fixpoint imports (parse : string -> option ver) (l : list (world * string)) (s : python) : python * list (option error) :=
  match l with
  | [] => (s, [])
  | (w, m) :: r => let (s, e) := import parse w m s in let (s, es) := imports parse r s in (s, e :: es)
  end.
