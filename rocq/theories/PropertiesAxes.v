(* C101: axes, from the catalogue to the user *)
From Verif Require Import Base ModelStrings ModelInfo ModelJumper ModelEngine ModelApi ModelPython ModelUser ModelRemote ModelAxes
     SpecRemote SpecAxes ProofsAxes.

(* ---- C101 ---- *)

(* A Python user asks for the axes of a dict.  The dict they get has the keys the catalogue's answer has and under every
   key its values, each once; what fails in the catalogue is an exception.  With a library on this machine ... *)
Theorem C101_python_local :
  forall (F W R : Type) (order order' : list string -> list string) (parse : string -> outcome (list R)) fdb (i : impl F W) d level w,
    an_order order -> an_order order' -> local_library order parse fdb i -> proper_ask d level ->
    (forall m, catalogue_axes parse fdb (dic_to_request d) level = Ok m -> good_axes m) ->
    sees_axes (fun _ => EGribJump) (catalogue_axes parse fdb (dic_to_request d) level) w (py_axes order' i d level w).
Proof. exact @local_python_axes. Qed.
Print Assumptions C101_python_local.

(* ... and with one that asks a server. *)
Theorem C101_python_server :
  forall (F M W R : Type) (order order' : list string -> list string) (parse : string -> outcome (list R)) fdb
         (k : link F M) e (i : impl F W) d level w,
    an_order order -> an_order order' -> serves_axes order parse fdb e -> library_of_server k e i -> proper_ask d level ->
    (forall text level m, catalogue_axes parse fdb text level = Ok m -> good_axes m) ->
    sees_axes (fun _ => EGribJump) (catalogue_axes parse fdb (dic_to_request d) level) w (py_axes order' i d level w).
Proof. exact @server_python_axes. Qed.
Print Assumptions C101_python_server.

(* the same for a Rust user, who gets the error itself, or its text from the server *)
Theorem C101_rust_local :
  forall (F W R : Type) (order : list string -> list string) (parse : string -> outcome (list R)) fdb utf8 (i : impl F W) text level w,
    an_order order -> (forall s, plain_text s -> utf8 s = true) -> local_library order parse fdb i -> text <> ""%string ->
    (forall m, catalogue_axes parse fdb text level = Ok m -> good_axes m) ->
    sees_axes (fun e => e) (catalogue_axes parse fdb text level) w (rust_axes utf8 i text level w).
Proof. exact @local_rust_axes. Qed.
Print Assumptions C101_rust_local.
Theorem C101_rust_server :
  forall (F M W R : Type) (order : list string -> list string) (parse : string -> outcome (list R)) fdb utf8
         (k : link F M) e (i : impl F W) text level w,
    an_order order -> (forall s, plain_text s -> utf8 s = true) -> serves_axes order parse fdb e -> library_of_server k e i ->
    text <> ""%string -> (forall text level m, catalogue_axes parse fdb text level = Ok m -> good_axes m) ->
    sees_axes (fun x => EMsg (k_what k x)) (catalogue_axes parse fdb text level) w (rust_axes utf8 i text level w).
Proof. exact @server_rust_axes. Qed.
Print Assumptions C101_rust_server.

(* so any two of these views of one catalogue are the same mapping *)
Theorem C101_same_view :
  forall (W : Type) b1 b2 (cat : outcome named_values) (w : W) s1 s2 r1 r2,
    cat <> UB -> sees_axes b1 cat w s1 -> sees_axes b2 cat w s2 -> fst s1 = Ok r1 -> fst s2 = Ok r2 -> same_axes r1 r2.
Proof. exact @same_view. Qed.
Print Assumptions C101_same_view.

(* Any library: what it answers reaches the Python user, and what it throws is an exception. *)
Theorem C101_python :
  forall (F W : Type) order (i : impl F W) d level w w' m,
    an_order order -> proper_ask d level -> m_axes i (dic_to_request d) level w = (Ok m, w') -> good_axes m ->
    exists r, py_axes order i d level w = (Ok r, w') /\ same_axes (in_key_order m) r.
Proof. exact @python_axes. Qed.
Print Assumptions C101_python.
Theorem C101_python_error :
  forall (F W : Type) order (i : impl F W) d level w w' e,
    proper_ask d level -> m_axes i (dic_to_request d) level w = (Throw e, w') -> py_axes order i d level w = (Throw EGribJump, w').
Proof. exact @python_axes_error. Qed.
Print Assumptions C101_python_error.

(* what is not a proper question is refused, and the library is not asked *)
Theorem C101_refused :
  forall (F W : Type) order (i : impl F W) d level w,
    (is_ascii (dic_to_request d) = false -> py_axes order i d level w = (Throw EBadValue, w)) /\
    (is_ascii (dic_to_request d) = true -> (level < -2147483648 \/ 2147483648 <= level)%Z ->
     py_axes order i d level w = (Throw EOutOfRange, w)) /\
    (d = [] -> (-2147483648 <= level < 2147483648)%Z -> py_axes order i d level w = (Throw EGribJump, w)).
Proof. exact @python_axes_refused. Qed.
Print Assumptions C101_refused.

(* whatever the texts are, Python reads and writes inside the arrays it made *)
Theorem C101_inside : forall m, fits_memory m -> py_read_axes m <> UB.
Proof. exact python_reads_inside. Qed.
Print Assumptions C101_inside.

(* the order of the values may change, the empty value stays; two requests in one text are refused *)
Example C101_example :
  py_axes (@rev string) axes_impl [("class", "od"); ("levtype", "sfc")]%string 3 tt =
    (Ok [("class", ["od"]); ("levelist", [""]); ("param", ["t"; "u"]); ("step", ["0"; "12"; "6"])]%string, tt) /\
  py_axes (fun l => l) axes_impl [("class", "od"); ("levtype", "sfc")]%string 2 tt =
    (Ok [("class", ["od"]); ("levelist", [""]); ("step", ["6"; "12"; "0"])]%string, tt) /\
  rust_axes is_ascii axes_impl "class=od/class=rd" 3 tt = (Throw EAssert, tt) /\
  py_axes (fun l => l) axes_impl [("class", "od/class=rd")]%string 3 tt = (Throw EGribJump, tt) /\
  same_axes [("step", ["0"; "12"; "6"])]%string [("step", ["6"; "12"; "0"])]%string.
Proof.
  split; [vm_compute; reflexivity|]. split; [vm_compute; reflexivity|]. split; [vm_compute; reflexivity|].
  split; [vm_compute; reflexivity|]. constructor; [|constructor]. split; [reflexivity|].
  exact (Permutation.Permutation_rev ["0"; "12"; "6"]%string).
Qed.
(* a key with a zero in it cannot be asked for through the C interface: an exception, not other values *)
Example C101_zero_example :
  py_read_axes [(String "a" (String Ascii.zero "b"), ["x"]%string)] = Throw EGribJump /\
  py_read_axes [("a", [String (Ascii.ascii_of_N 233) ""])]%string = Throw EBadValue.
Proof. split; vm_compute; reflexivity. Qed.
